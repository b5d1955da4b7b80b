(** * Queries on spill data

    Models Model.get_spill_data (model.py:1932-2006): the text of the condition is split at '&&',
    each part at '||', each of these at white space into a property, an operator and a number.
    Text is the list of its character codes (white space: the ASCII ones).  The data arrays of a
    container are columns of numbers (rationals) or vectors.  The number is Python source for eval:
    decimal numerals with an optional minus sign are modelled, for other text RuntimeErr stands for
    whatever eval does. *)
From Coq Require Import String.
From Verif Require Import Py QLemmas PipModel StrModel.
Open Scope Z_scope.

(** str.split(c + c), then rsplit, which takes the separators from the right. *)
Fixpoint lsplit2 (c : Z) (s : str) : list str :=
  match s with
  | [] => [[]]
  | a :: s' =>
      match s' with
      | b :: r => if (a =? c) && (b =? c) then [] :: lsplit2 c r
                  else match lsplit2 c s' with w :: ws => (a :: w) :: ws | [] => [[a]] end
      | [] => [[a]]
      end
  end.
Definition rsplit2 (c : Z) (s : str) : list str := rev (map (@rev Z) (lsplit2 c (rev s))).

(** str.rsplit() without arguments: the words. *)
Definition is_space (c : Z) : bool := ((9 <=? c) && (c <=? 13)) || ((28 <=? c) && (c <=? 32)).
Definition flush (w : str) : list str := match w with [] => [] | _ => [w] end.
Fixpoint words_from (cur s : str) : list str :=
  match s with
  | [] => flush cur
  | c :: r => if is_space c then flush cur ++ words_from [] r else words_from (cur ++ [c]) r
  end.
Definition words (s : str) : list str := words_from [] s.

(** Numerals: an optional minus sign, digits without a leading zero, optionally a point and digits. *)
Definition is_digit (c : Z) : bool := (48 <=? c) && (c <=? 57).
Definition horner (s : str) : Z := fold_left (fun a c => 10 * a + (c - 48)) s 0.
Definition all_digits (s : str) : bool := truthy s && forallb is_digit s.
Definition plain_int (s : str) : bool :=
  all_digits s && match s with 48 :: _ :: _ => false | _ => true end.
Fixpoint power10 (s : str) : positive := match s with [] => 1%positive | _ :: r => (10 * power10 r)%positive end.
Definition unsigned (s : str) : option Q :=
  match split_on dot s with
  | [a] => if plain_int a then Some (inject_Z (horner a)) else None
  | [a; b] => if plain_int a && all_digits b then Some (inject_Z (horner a) + (horner b # power10 b))%Q else None
  | _ => None
  end.
Definition numeral (s : str) : option Q :=
  match s with
  | 45 :: r => match unsigned r with Some q => Some (- q)%Q | None => None end
  | _ => unsigned s
  end.

(** An entry of a data array: a number, or a row of a two-dimensional array. *)
Inductive val := Num (q : Q) | Vec (l : list Q).
Definition columns := list (str * list val).

(** int() of a NumPy value (truncates; arrays with more than one entry raise). *)
Definition qtrunc (q : Q) : Z := Z.quot (Qnum q) (Zpos (Qden q)).
Definition py_int (v : val) : res Z :=
  match v with Num q => Ok (qtrunc q) | Vec [q] => Ok (qtrunc q) | Vec _ => Raise TypeErr end.

(** model.py:1957-1962, elem_val. *)
Definition elem_val (cols : columns) (prop : str) (i : nat) : res val :=
  match sget prop cols with
  | None => Raise KeyErr
  | Some c => match nth_error c i with Some v => Ok v | None => Raise IndexErr end
  end.

(** model.py:1975-1977, test: an operator that is not in the set gives None, which is false. *)
Definition test (v : val) (op num : str) : res bool :=
  if smem op [lit "<"; lit "<="; lit ">"; lit ">="; lit "=="] then
    do n <- py_int v;
    match numeral num with
    | None => Raise RuntimeErr
    | Some q =>
        let x := inject_Z n in
        Ok (if seqb op (lit "<") then Qltb x q
            else if seqb op (lit "<=") then Qle_bool x q
            else if seqb op (lit ">") then Qltb q x
            else if seqb op (lit ">=") then Qle_bool q x
            else Qeq_bool x q)
    end
  else Ok false.

(** model.py:1964-1973, test_phrase. *)
Fixpoint test_phrase (cols : columns) (i : nat) (phrase : list str) : res bool :=
  match phrase with
  | [] => Ok false
  | sub :: r =>
      let cond := words sub in
      do prop <- match nth_error cond 0 with Some x => Ok x | None => Raise IndexErr end;
      do v <- elem_val cols prop i;
      do op <- match nth_error cond 1 with Some x => Ok x | None => Raise IndexErr end;
      do num <- match nth_error cond 2 with Some x => Ok x | None => Raise IndexErr end;
      do b <- test v op num;
      if b then Ok true else test_phrase cols i r
  end.

(** model.py:1996-1999: all the phrases, up to the first that fails. *)
Fixpoint test_all (cols : columns) (i : nat) (phrases : list (list str)) : res bool :=
  match phrases with
  | [] => Ok true
  | p :: r => do b <- test_phrase cols i p; if b then test_all cols i r else Ok false
  end.

(** model.py:2001-2004: the values of one element, added to every list of the result. *)
Definition append_elem (cols : columns) (i : nat) (result : list (str * list val)) : res (list (str * list val)) :=
  mapM (fun kl => do v <- elem_val cols (fst kl) i; Ok (fst kl, snd kl ++ [v])) result.

(** model.py:1993-2004: the loop over [n] elements from [i]. *)
Fixpoint loop (cols : columns) (phrases : list (list str)) (i n : nat) (result : list (str * list val)) : res (list (str * list val)) :=
  match n with
  | O => Ok result
  | S n' =>
      do b <- test_all cols i phrases;
      do result' <- (if b then append_elem cols i result else Ok result);
      loop cols phrases (S i) n' result'
  end.

(** model.py:1932-2006, get_spill_data: [containers] is the pair or single container,
    [ucert] the index ('ucert' is 1), [targets] the properties asked for in the order of iteration
    (a string is iterated character by character: [map (fun c => [c])]). *)
Definition get_spill_data (containers : list (nat * columns)) (targets : list str) (conditions : str) (ucert : Z)
  : res (list (str * list val)) :=
  let phrases := map (rsplit2 124) (rsplit2 38 conditions) in
  do sc <- py_get containers ucert;
  let result := fold_left (fun d t => sset t [] d) targets [] in
  loop (snd sc) phrases 0 (fst sc) result.
