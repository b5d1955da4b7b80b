(** * What it means that a saved object comes back *)
From Coq Require Import String.
From Verif Require Import Py StrModel SaveModel.
Open Scope Z_scope.

Section Spec.
  Context {D : Type}.

  (** [s] is [t] or one of the objects it refers to, directly or not. *)
  Inductive within : gobj D -> gobj D -> Prop :=
  | w_self : forall t, within t t
  | w_kid : forall s k t, In k (o_kids t) -> within s k -> within s t.

  (** An id belongs to one object. *)
  Definition one_object_per_id (t : gobj D) : Prop :=
    forall a b, within a t -> within b t -> o_id a = o_id b -> a = b.

  (** The loaded objects [heap], with the result [root], are a copy of the graph under [t]: there
      is a one-to-one correspondence [m] from the objects of [t] to the new ones that takes [t] to
      [root] and keeps class, name, plain attributes, the contents of the data files, and the
      references, in order.  So objects that were shared are shared, and objects that were
      distinct are distinct. *)
  Definition copy_of (ext : str -> option content) (t : gobj D) (heap : list (newobj D)) (root : nat) : Prop :=
    exists m : Z -> nat,
      m (o_id t) = root /\
      (forall a b, within a t -> within b t -> m (o_id a) = m (o_id b) -> a = b) /\
      forall s, within s t -> exists n, nth_error heap (m (o_id s)) = Some n /\
        n_cls n = o_cls s /\ n_nm n = o_nm s /\ n_dat n = o_dat s /\
        n_kids n = map (fun k => m (o_id k)) (o_kids s) /\
        Forall2 (fun p e => exists c, ext p = Some c /\ e = Some (Data c)) (o_files s) (n_files n).

  (** Names that can be saved: something besides dots, and no braces. *)
  Definition good_name (n : str) : Prop := (exists c, In c n /\ c <> dot) /\ ~ In 123 n /\ ~ In 125 n.

  (** Data files that can be saved together: they exist, files with the same last part have the
      same contents, and none ends in .json or is called as one of the two version files. *)
  Definition good_files (ext : str -> option content) (t : gobj D) : Prop :=
    forall s p, within s t -> In p (o_files s) ->
      (exists c, ext p = Some c) /\ endswith (lit ".json") (basename p) = false /\
      basename p <> lit "version.txt" /\ basename p <> lit "pygnome_version.txt" /\
      (forall s' q, within s' t -> In q (o_files s') -> basename q = basename p -> ext q = ext p) .
End Spec.
