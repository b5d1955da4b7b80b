(** * What C42, C43 and C44 mean *)
From Coq Require Import QArith String.
From Verif Require Import Py StrModel PersModel.
Open Scope Z_scope.

(** A path directly inside directory [base]. *)
Definition direct_child (base p : path) : Prop :=
  exists b, p = base ++ [b] /\ b <> [] /\ b <> lit "." /\ b <> lit ".." /\ ~ In slash b.

(** The directory that a folder argument denotes: the working directory for the empty one. *)
Definition denotes (f : fs) (folder : str) (base : path) : Prop :=
  is_dir f base = true /\ ((folder = [] /\ base = fs_cwd f) \/ (folder <> [] /\ resolve f folder = Ok base)).

(** The parent of a directory is a directory (the root is its own parent). *)
Definition wf_fs (f : fs) : Prop := forall p, is_dir f p = true -> is_dir f (removelast p) = true.

(** The members that an extraction is for: under the prefix, and not folders. *)
Definition wanted (prefix n : str) : Prop := (exists t, n = prefix ++ t) /\ ~ exists t, n = t ++ lit "/".

(** [b] is the part of [n] after its last slash. *)
Definition last_part (n b : str) : Prop := ~ In slash b /\ (n = b \/ exists d, n = d ++ slash :: b).

(** What the archive holds under a name: the last member of that name. *)
Definition holds (z : archive) (n : str) (c : content) : Prop :=
  exists pre m post, z = pre ++ m :: post /\ zi_name m = n /\ zi_data m = Ok c /\ ~ In n (map zi_name post).

(** *.json: the last component is something other than dots, followed by .json. *)
Definition json_named (n : str) : Prop :=
  exists d stem, n = d ++ stem ++ lit ".json" /\ (d = [] \/ exists d', d = d' ++ lit "/") /\
                 ~ In slash stem /\ exists c, In c stem /\ c <> dot.

(** What is_savezip_valid promises of one member. *)
Definition member_ok (max_json : Z) (max_ratio : Q) (m : member) : Prop :=
  (exists c, zi_data m = Ok c) /\
  (json_named (zi_name m) -> zi_size m <= max_json) /\
  (0 < zi_csize m -> (inject_Z (zi_size m) <= max_ratio * inject_Z (zi_csize m))%Q) /\
  ~ exists a b, zi_name m = a ++ lit ".." ++ b.

(** A history of [reference] calls that do not raise; what each call was given. *)
Section History.
  Variable cls : Z -> str.
  Variable tr : Z -> bool.
  Definition call := (Z * option str)%type.
  Fixpoint run_refs (r : refs) (h : list call) : refs :=
    match h with
    | [] => r
    | (o, n) :: h' => match reference cls tr r o n with Ok x => run_refs (fst x) h' | Raise _ => run_refs r h' end
    end.

  (** The condition under which automatic names are safe: every object has a true truth value,
      an explicit name is not empty, and if it looks like an automatic one then its number is
      not beyond the number of references so far. *)
  Definition safe_call (r : refs) (c : call) : Prop :=
    tr (fst c) = true /\
    match snd c with
    | None => True
    | Some n => n <> [] /\ forall k j, n = auto_name k j -> (j <= length r)%nat
    end.
  Fixpoint safe_from (r : refs) (h : list call) : Prop :=
    match h with
    | [] => True
    | c :: h' => safe_call r c /\ safe_from (run_refs r [c]) h'
    end.
End History.
