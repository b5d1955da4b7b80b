(** * The data arrays of a spill container

    Models gnome/spill_container.py (SpillContainerData, SpillContainer,
    FateDataView) and gnome/array_types.py.

    Array names are integers (Python strings, numbered); an array is the list of
    its rows; a row is an integer or a vector of rationals.  Floats are
    rationals without rounding.  What a spill or a substance writes into the
    rows of new elements, and what movers and weatherers write into existing
    rows, is a parameter. *)
From Verif Require Import Py QLemmas.
Open Scope Z_scope.

(** ** Array types *)

Inductive val := VZ (z : Z) | VQ (v : list Q).

(** array_types.py:50 (ArrayType), 158 (IdArrayType), 189
    (ArrayTypeDivideOnSplit). *)
Inductive kind := Plain | IdKind | Divide.

(** The names that the container itself uses. *)
Definition n_id : Z := 0.
Definition n_spill : Z := 1.
Definition n_status : Z := 2.
Definition n_mass : Z := 3.
Definition n_fate : Z := 4.

(** basic_types.oil_status.to_be_removed. *)
Definition to_be_removed : Z := 12.

Definition atype := (kind * val)%type.      (* kind, initial_value *)
Definition types := dict atype.
Definition arrays := dict (list val).

(** array_types.py:83-108 (ArrayType.initialize), 162-175
    (IdArrayType.initialize).  The initial value of the ids, [iv], is an
    attribute of an ArrayType object that all containers share
    (default_array_types, array_types.py:394). *)
Definition initialize (iv : Z) (at_ : atype) (n : Z) : list val :=
  match fst at_ with
  | IdKind => map VZ (zseq iv (Z.to_nat n))
  | _ => repeat (snd at_) (Z.to_nat n)
  end.

Definition scale (q : Q) (v : val) : val :=
  match v with VQ l => VQ (map (fun x => x * q)%Q l) | VZ z => VQ [(inject_Z z * q)%Q] end.

Definition qsum (l : list Q) : Q := fold_right Qplus 0%Q l.

(** numpy.allclose(x, 1.0): |x - 1| <= 1e-8 + 1e-5. *)
Definition close_to_1 (x : Q) : bool := Qle_bool (Qabs (x - 1)) (1001 # 100000000).

(** array_types.py:116-133, 177-186, 190-228 (split_element). *)
Definition split_value (k : kind) (num : Z) (v : val) (frac : option (list Q)) : res (list val) :=
  if num <? 2 then Raise ValueErr
  else match k, frac with
  | Divide, Some l =>
      if negb (Z.of_nat (length l) =? num) then Raise ValueErr
      else if negb (close_to_1 (qsum l)) then Raise ValueErr
      else Ok (map (fun q => scale q v) l)
  | Divide, None => Ok (repeat (scale (1 / inject_Z num) v) (Z.to_nat num))
  | _, _ => Ok (repeat v (Z.to_nat num))
  end.

(** ** The container *)

(** One of the dictionaries of FateDataView: empty, the container's own
    dictionary of arrays, or a dictionary of copies. *)
Inductive view := VEmpty | VAlias | VCopy (d : arrays).

Record sc := mkSC {
  c_types : types;              (* _array_types *)
  c_data : arrays;              (* _data_arrays *)
  c_view : dict view }.         (* _fate_data_view: fate -> dictionary *)

Definition put_data (c : sc) (d : arrays) : sc := mkSC (c_types c) d (c_view c).
Definition put_view (c : sc) (v : dict view) : sc := mkSC (c_types c) (c_data c) v.

(** spill_container.py:371-386, 738-764 (__init__, rewind). *)
Definition empty_sc : sc := mkSC [] [] [].
Definition rewind_sc (c : sc) : sc := empty_sc.

(** spill_container.py:849-866 (initialize_data_arrays). *)
Definition init_arrays (ts : types) (d : arrays) : arrays :=
  fold_left (fun d t => dset (fst t) [] d) ts d.

(** spill_container.py:817-835 (prepare_for_model_run): [ats] updates the
    defaults.  The view is renewed if 'fate_status' is one of the arrays. *)
Definition update_types (a b : types) : types :=
  fold_left (fun d t => dset (fst t) (snd t) d) (a ++ b) [].
Definition prepare_sc (defaults ats : types) (c : sc) : sc :=
  let ts := update_types defaults ats in
  mkSC ts (init_arrays ts (c_data c)) (if dmem n_fate ts then [] else c_view c).

(** spill_container.py:319-330 (__len__): the length of the first array. *)
Definition sc_len (c : sc) : nat :=
  match c_data c with [] => O | (_, l) :: _ => length l end.

(** spill_container.py:567-591 (_append_data_arrays). *)
Fixpoint append_arrays (iv : Z) (ts : types) (n : Z) (d : arrays) : arrays * option exc :=
  match ts with
  | [] => (d, None)
  | (name, at_) :: r =>
      match dget name d with
      | None => (d, Some KeyErr)
      | Some l => append_arrays iv r n (dset name (l ++ initialize iv at_ n) d)
      end
  end.

(** [sc[name][-n:] = vals], with one value for every row. *)
Definition write_tail (n : Z) (d : arrays) (name : Z) (vals : list val) : arrays * option exc :=
  match dget name d with
  | None => (d, Some KeyErr)
  | Some l =>
      let k := (length l - Z.to_nat n)%nat in
      if (length vals =? length (skipn k l))%nat then (dset name (firstn k l ++ vals) d, None)
      else (d, Some ValueErr)
  end.

Fixpoint write_tails (n : Z) (ws : list (Z * list val)) (d : arrays) : arrays * option exc :=
  match ws with
  | [] => (d, None)
  | (name, vals) :: r =>
      match write_tail n d name vals with
      | (d1, None) => write_tails n r d1
      | (d1, Some e) => (d1, Some e)
      end
  end.

(** What one spill does in release_elements (spills/spill.py:431-464): the
    number of elements it has to release, its index, what the release and the
    substance write into the new rows, and whether one of them raises. *)
Record rel := mkRelIn { ri_n : Z; ri_idx : Z; ri_writes : list (Z * list val); ri_fail : option exc }.

(** spill_container.py:895-933 (release_elements): the initial value of the
    ids follows the last id in the array.  Spills that are off are left out of
    the list.  The initial value of 'spill_num' is set there too; it is left
    out, because the new rows of that array are always overwritten. *)
Fixpoint release_loop (iv : Z) (c : sc) (rs : list rel) : Z * sc * option exc :=
  match rs with
  | [] => (iv, put_view c [], None)
  | r :: rest =>
      if ri_n r <=? 0 then release_loop iv c rest
      else
        match append_arrays iv (c_types c) (ri_n r) (c_data c) with
        | (d, Some e) => (iv, put_data c d, Some e)
        | (d, None) =>
            match write_tails (ri_n r) ((n_spill, repeat (VZ (ri_idx r)) (Z.to_nat (ri_n r))) :: ri_writes r) d with
            | (d, Some e) => (iv, put_data c d, Some e)
            | (d, None) =>
                match ri_fail r with
                | Some e => (iv, put_data c d, Some e)
                | None =>
                    match dget n_spill d, dget n_id d with
                    | Some sp, Some ids =>
                        match sp with
                        | [] => release_loop 0 (put_data c d) rest
                        | _ => match py_get ids (-1) with
                               | Ok (VZ i) => release_loop (i + 1) (put_data c d) rest
                               | _ => (iv, put_data c d, Some IndexErr)
                               end
                        end
                    | _, _ => (iv, put_data c d, Some KeyErr)
                    end
                end
            end
        end
  end.

(** numpy.delete(l, ixs, axis=0). *)
Fixpoint delete_from (i : nat) (ixs : list nat) (l : list val) : list val :=
  match l with
  | [] => []
  | x :: r => if existsb (Nat.eqb i) ixs then delete_from (S i) ixs r else x :: delete_from (S i) ixs r
  end.
Definition np_delete (ixs : list nat) (l : list val) : res (list val) :=
  if forallb (fun i => i <? length l)%nat ixs then Ok (delete_from 0 ixs l) else Raise IndexErr.

Definition is_val (z : Z) (v : val) : bool := match v with VZ x => x =? z | VQ _ => false end.
(** numpy.where(l == z)[0] *)
Fixpoint where_val (i : nat) (z : Z) (l : list val) : list nat :=
  match l with
  | [] => []
  | v :: r => if is_val z v then i :: where_val (S i) z r else where_val (S i) z r
  end.

Fixpoint delete_all (ts : types) (ixs : list nat) (d : arrays) : arrays * option exc :=
  match ts with
  | [] => (d, None)
  | (name, _) :: r =>
      match dget name d with
      | None => (d, Some KeyErr)
      | Some l => match np_delete ixs l with
                  | Ok l' => delete_all r ixs (dset name l' d)
                  | Raise e => (d, Some e)
                  end
      end
  end.

(** spill_container.py:971-988 (model_step_is_done). *)
Definition step_done (c : sc) : sc * option exc :=
  match c_data c with
  | [] => (c, None)
  | _ =>
      match dget n_status (c_data c) with
      | None => (c, Some KeyErr)
      | Some st =>
          match where_val 0 to_be_removed st with
          | [] => (c, None)
          | ixs => match delete_all (c_types c) ixs (c_data c) with
                   | (d, None) => (mkSC (c_types c) d [], None)
                   | (d, Some e) => (put_data c d, Some e)
                   end
          end
      end
  end.

(** spill_container.py:227-264 (__setitem__); the check of the dtype is left
    out. *)
Definition set_item (c : sc) (name : Z) (l : list val) : sc * option exc :=
  match dget name (c_data c) with
  | Some old => if (length l =? length old)%nat then (put_data c (dset name l (c_data c)), None)
                else (c, Some ValueErr)
  | None => if (length l =? sc_len c)%nat then (put_data c (dset name l (c_data c)), None)
            else (c, Some IndexErr)
  end.

(** [sc[name][:] = l]: movers and weatherers change rows in place. *)
Definition write (c : sc) (name : Z) (l : list val) : sc * option exc :=
  match dget name (c_data c) with
  | Some old => if (length l =? length old)%nat then (put_data c (dset name l (c_data c)), None)
                else (c, Some ValueErr)
  | None => (c, Some KeyErr)
  end.

(** ** Views *)

(** A fate: 0 is 'all', otherwise the flag of basic_types.fate (88-100). *)
Definition get_view (c : sc) (f : Z) : view := match dget f (c_view c) with Some v => v | None => VEmpty end.

Definition has_flag (f : Z) (v : val) : bool := match v with VZ x => Z.land x f =? f | VQ _ => false end.
Definition positive (v : val) : bool :=
  match v with VQ [m] => negb (Qle_bool m 0) | VQ _ => false | VZ z => 0 <? z end.

(** spill_container.py:42-53 (_get_fate_mask); arrays of different lengths
    cannot be combined. *)
Definition fate_mask (c : sc) (f : Z) : res (list bool) :=
  match dget n_mass (c_data c) with
  | None => Raise KeyErr
  | Some ms =>
      do w <- (if f =? 0 then Ok (repeat true (sc_len c))
               else match dget n_fate (c_data c) with
                    | None => Raise KeyErr
                    | Some fs => Ok (map (has_flag f) fs)
                    end);
      if (length w =? length ms)%nat then Ok (map (fun '(a, b) => a && positive b) (combine w ms))
      else Raise ValueErr
  end.

(** [l[mask]] *)
Fixpoint masked {A} (mask : list bool) (l : list A) : list A :=
  match mask, l with
  | b :: m, x :: r => if b then x :: masked m r else masked m r
  | _, _ => []
  end.

(** spill_container.py:70-78: for every name, [dict[name] = sc[name][mask]],
    where the dictionary is the container's own ([alias]) or the view's. *)
Fixpoint copy_masked (alias : bool) (mask : list bool) (names : list Z) (data dst : arrays)
  : arrays * arrays * option exc :=
  match names with
  | [] => (data, dst, None)
  | name :: r =>
      match dget name data with
      | None => (data, dst, Some KeyErr)
      | Some l =>
          if (length mask =? length l)%nat then
            if alias then copy_masked alias mask r (dset name (masked mask l) data) dst
            else copy_masked alias mask r data (dset name (masked mask l) dst)
          else (data, dst, Some IndexErr)
      end
  end.

(** spill_container.py:55-93 (_set_data, get_data). *)
Definition get_data (c : sc) (names : list Z) (f : Z) : sc * option exc :=
  match fate_mask c f with
  | Raise e => (c, Some e)
  | Ok mask =>
      if forallb (fun b => b) mask then (put_view c (dset f VAlias (c_view c)), None)
      else
        match get_view c f with
        | VAlias => let '(d, _, e) := copy_masked true mask names (c_data c) [] in (put_data c d, e)
        | VEmpty => let '(_, v, e) := copy_masked false mask names (c_data c) [] in
                    (put_view c (dset f (VCopy v) (c_view c)), e)
        | VCopy v => let '(_, v, e) := copy_masked false mask names (c_data c) v in
                     (put_view c (dset f (VCopy v) (c_view c)), e)
        end
  end.

(** A weatherer changes rows of the data it got: [data[name][:] = l]. *)
Definition modify (c : sc) (f name : Z) (l : list val) : sc * option exc :=
  match get_view c f with
  | VEmpty => (c, Some KeyErr)
  | VAlias => write c name l
  | VCopy v =>
      match dget name v with
      | None => (c, Some KeyErr)
      | Some old => if (length l =? length old)%nat
                    then (put_view c (dset f (VCopy (dset name l v)) (c_view c)), None)
                    else (c, Some ValueErr)
      end
  end.

(** Several changes, up to the first error. *)
Fixpoint modify_all (c : sc) (f : Z) (edits : list (Z * list val)) : sc * option exc :=
  match edits with
  | [] => (c, None)
  | (name, l) :: r => match modify c f name l with
                      | (c1, None) => modify_all c1 f r
                      | (c1, Some e) => (c1, Some e)
                      end
  end.

(** [l[mask] = vals]; None if the numbers differ. *)
Fixpoint scatter_masked (mask : list bool) (vals : list val) (l : list val) : option (list val) :=
  match mask, l with
  | true :: m, _ :: r => match vals with
                         | v :: vs => option_map (cons v) (scatter_masked m vs r)
                         | [] => None
                         end
  | false :: m, x :: r => option_map (cons x) (scatter_masked m vals r)
  | [], [] => match vals with [] => Some [] | _ => None end
  | _, _ => None
  end.

Definition near_0 (v : val) : bool :=
  match v with VQ [m] => Qle_bool (Qabs m) (1 # 100000000) | VQ _ => false | VZ z => z =? 0 end.
Definition val_eqb (a b : val) : bool :=
  match a, b with VZ x, VZ y => x =? y | _, _ => false end.

Fixpoint sync (mask : list bool) (v : arrays) (d : arrays) : arrays * option exc :=
  match v with
  | [] => (d, None)
  | (name, vals) :: r =>
      match dget name d with
      | None => (d, Some KeyErr)
      | Some l => match scatter_masked mask vals l with
                  | Some l' => sync mask r (dset name l' d)
                  | None => (d, Some ValueErr)
                  end
      end
  end.

(** spill_container.py:95-146 (update_sc).  Comparing fate arrays of different
    lengths counts as different. *)
Definition update_sc (c : sc) (f : Z) : sc * option exc :=
  match get_view c f with
  | VAlias => (put_view c [], None)
  | VEmpty => (c, match fate_mask c f with Ok _ => None | Raise e => Some e end)
  | VCopy v =>
      match fate_mask c f with
      | Raise e => (c, Some e)
      | Ok mask =>
          let changed :=
            match dget n_fate v, dget n_fate (c_data c) with
            | Some a, Some b =>
                negb ((length a =? length (masked mask b))%nat &&
                      forallb (fun '(x, y) => val_eqb x y) (combine a (masked mask b)))
            | _, _ => false
            end in
          let reset := changed || match dget n_mass v with Some ms => existsb near_0 ms | None => false end in
          match sync mask v (c_data c) with
          | (d, Some e) => (put_data c d, Some e)
          | (d, None) => (mkSC (c_types c) d (if reset then [] else c_view c), None)
          end
      end
  end.

(** ** Splitting an element *)

Fixpoint split_arrays (ts : types) (idx : nat) (num : Z) (frac : option (list Q)) (d : arrays)
  : arrays * option exc :=
  match ts with
  | [] => (d, None)
  | (name, at_) :: r =>
      match dget name d with
      | None => (d, Some KeyErr)
      | Some l =>
          match nth_error l idx with
          | None => (d, Some IndexErr)
          | Some v =>
              match split_value (fst at_) num v frac with
              | Raise e => (d, Some e)
              | Ok parts => split_arrays r idx num frac
                              (dset name (firstn idx l ++ parts ++ skipn (S idx) l) d)
              end
          end
      end
  end.

(** spill_container.py:148-159 (_reset_fatedata): views that contain the
    element are taken again; a view without the ids is a KeyError. *)
Fixpoint reset_fatedata (fates : list Z) (ix : Z) (c : sc) : sc * option exc :=
  match fates with
  | [] => (c, None)
  | f :: r =>
      let d := match get_view c f with VEmpty => [] | VAlias => c_data c | VCopy v => v end in
      match d with
      | [] => reset_fatedata r ix c
      | _ =>
          match dget n_id d with
          | None => (c, Some KeyErr)
          | Some ids =>
              if existsb (is_val ix) ids then
                match get_data c (dkeys d) f with
                | (c1, None) => reset_fatedata r ix c1
                | (c1, Some e) => (c1, Some e)
                end
              else reset_fatedata r ix c
          end
      end
  end.

(** surface_weather, subsurf_weather, skim, burn, disperse, non_weather, all *)
Definition all_fates : list Z := [2; 4; 8; 16; 32; 1; 0].

(** spill_container.py:935-969 (split_element): rows idx .. idx+num-1 become
    the parts (numpy.insert of all but the last part, then assignment of the
    last one to the old row). *)
Definition split_element (c : sc) (ix num : Z) (frac : option (list Q)) : sc * option exc :=
  match dget n_id (c_data c) with
  | None => (c, Some KeyErr)
  | Some ids =>
      match where_val 0 ix ids with
      | [] => (c, Some IndexErr)
      | idx :: _ =>
          match split_arrays (c_types c) idx num frac (c_data c) with
          | (d, Some e) => (put_data c d, Some e)
          | (d, None) => reset_fatedata all_fates ix (put_data c d)
          end
      end
  end.

(** ** Histories *)

Inductive op :=
| ORewind
| OPrepare (defaults ats : types)
| ORelease (rs : list rel)
| OStepDone
| OSplit (ix num : Z) (frac : option (list Q))
| OSetItem (name : Z) (l : list val)
| OWrite (name : Z) (l : list val)
| OGet (names : list Z) (f : Z)
| OModify (f name : Z) (l : list val)
| OUpdate (f : Z).

(** The state: the shared initial value of the ids, and a container. *)
Definition do_op (iv : Z) (c : sc) (o : op) : Z * sc * option exc :=
  let same (r : sc * option exc) := (iv, fst r, snd r) in
  match o with
  | ORewind => (iv, rewind_sc c, None)
  | OPrepare df ats => (iv, prepare_sc df ats c, None)
  | ORelease rs => release_loop iv c rs
  | OStepDone => same (step_done c)
  | OSplit ix num frac => same (split_element c ix num frac)
  | OSetItem name l => same (set_item c name l)
  | OWrite name l => same (write c name l)
  | OGet names f => same (get_data c names f)
  | OModify f name l => same (modify c f name l)
  | OUpdate f => same (update_sc c f)
  end.

(** The forecast container and the uncertain one share the array types. *)
Record world := mkWorld { w_iv : Z; w_fc : sc; w_unc : sc }.
Definition do_world (w : world) (o : bool * op) : world :=
  let '(u, o) := o in
  if u then let '(iv, c, _) := do_op (w_iv w) (w_unc w) o in mkWorld iv (w_fc w) c
  else let '(iv, c, _) := do_op (w_iv w) (w_fc w) o in mkWorld iv c (w_unc w).
Definition run_world (w : world) (os : list (bool * op)) : world := fold_left do_world os w.
Definition new_world : world := mkWorld 0 empty_sc empty_sc.
