(** * Saving an object with everything it refers to, and loading it again

    Models [py_gnome/gnome/persist/base_schema.py] ([ObjType._save] 260-325, [save] 327-369,
    [_process_supporting_file] 371-384, [load] 386-427, [hydrate_json] 429-494,
    [_load_supporting_file] 496-526, [_load_json_from_file] 528-541, [_deser] 137-155,
    [gen_unique_filename] and its helpers 965-1004) and
    [py_gnome/gnome/gnomeobject.py] ([GnomeObject.save] 890-903, [load] 930-959).

    Not modelled: how one class turns its own plain attributes into json and back ([to_dict],
    [new_from_dict], colander): the plain attributes of an object are one value of type [D] that
    survives json.  Fresh unique ids given to new objects never equal a file name, so the
    entries that [register_refs] adds are left out.  [update_savefile] does nothing to a file of
    the current version.  The folder that is loaded from holds the members of the archive. *)
From Coq Require Import String.
From Verif Require Import Py StrModel.
Open Scope Z_scope.

Section Save.
  Variable D : Type.
  Definition content := str.

  (** An object: its unique id, the number of its class, its name, its plain attributes, the
      paths of its data files, and the objects it refers to (single references and collections,
      in the order of the schema).  A shared object appears in several places with the same id. *)
  Inductive gobj := Obj (id : Z) (cls : Z) (nm : str) (dat : D) (files : list str) (kids : list gobj).
  Definition o_id (t : gobj) := match t with Obj i _ _ _ _ _ => i end.
  Definition o_cls (t : gobj) := match t with Obj _ c _ _ _ _ => c end.
  Definition o_nm (t : gobj) := match t with Obj _ _ n _ _ _ => n end.
  Definition o_dat (t : gobj) := match t with Obj _ _ _ d _ _ => d end.
  Definition o_files (t : gobj) := match t with Obj _ _ _ _ f _ => f end.
  Definition o_kids (t : gobj) := match t with Obj _ _ _ _ _ k => k end.

  (** The json written for an object: references are file names in the archive. *)
  Record json := mkJ { j_id : Z; j_cls : Z; j_nm : str; j_dat : D; j_files : list str; j_kids : list str }.
  Inductive entry := Json (j : json) | Data (c : content).
  Definition zipf := list (str * entry).
  Definition in_zip (n : str) (z : zipf) : bool := match sget n z with Some _ => true | None => false end.

  (** base_schema.py 977-979: slash, backslash, angle brackets, colon, double quote, bar, question
      mark, star and dollar become underscores. *)
  Definition unsafe : list Z := [47; 92; 60; 62; 58; 34; 124; 63; 42; 36].
  Definition sanitize_string (s : str) : str := map (fun c => if zmem c unsafe then underscore else c) s.

  (** base_schema.py 992: [fmtstring.format(x)] for the format [stem + '{0}' + ext].  A brace in
      the name makes [format] raise in nearly every case (KeyError for {a}, ValueError for a
      single brace); the model raises KeyErr for every brace. *)
  Definition brace (c : Z) : bool := (c =? 123) || (c =? 125).
  Definition fmt (stem ext x : str) : res str :=
    if existsb brace (stem ++ ext) then Raise KeyErr else Ok (stem ++ x ++ ext).

  (** base_schema.py 996-1004: [n] more rounds of the loop, the next number being [i]. *)
  Fixpoint pick (n i : nat) (stem ext new : str) (z : zipf) : res str :=
    match n with
    | O => Raise ValueErr
    | S n' => if negb (in_zip new z) then Ok new
              else do new' <- fmt stem ext (lit " (" ++ str_nat i ++ lit ")"); pick n' (S i) stem ext new' z
    end.
  Definition rounds : nat := 255.

  (** base_schema.py 982-1004. *)
  Definition gen_unique_filename (name : str) (z : zipf) : res str :=
    let x := splitext (basename (sanitize_string name)) in
    do new <- fmt (fst x) (snd x) [];
    pick rounds 0 (fst x) (snd x) new z.

  (** The file system from which data files are read. *)
  Variable ext : str -> option content.

  (** base_schema.py 371-384. *)
  Definition process_file (p : str) (z : zipf) : res (zipf * str) :=
    let d := basename p in
    if in_zip d z then Ok (z, d)
    else match ext p with Some c => Ok (z ++ [(d, Data c)], d) | None => Raise OSErr end.
  Fixpoint process_files (ps : list str) (z : zipf) : res (zipf * list str) :=
    match ps with
    | [] => Ok (z, [])
    | p :: r => do x <- process_file p z; do y <- process_files r (fst x); Ok (fst y, snd x :: snd y)
    end.

  (** base_schema.py 285-309: the file name that stands for a child. *)
  Definition ref_name (refs : dict str) (k : gobj) : str :=
    match dget (o_id k) refs with Some n => n | None => o_nm k ++ lit ".json" end.

  (** base_schema.py 260-325: after the children. *)
  Definition finish (t : gobj) (st : zipf * dict str) : res (zipf * dict str) :=
    do x <- match dget (o_id t) (snd st) with
            | Some fn => Ok (fn, snd st)
            | None => do fn <- gen_unique_filename (o_nm t ++ lit ".json") (fst st); Ok (fn, dset (o_id t) fn (snd st))
            end;
    let names := map (ref_name (snd x)) (o_kids t) in
    do y <- process_files (o_files t) (fst st);
    if in_zip (fst x) (fst y) then Ok (fst y, snd x)
    else Ok (fst y ++ [(fst x, Json (mkJ (o_id t) (o_cls t) (o_nm t) (o_dat t) (snd y) names))], snd x).

  (** base_schema.py 327-369: the children first, then the object. *)
  Fixpoint save_obj (t : gobj) (st : zipf * dict str) : res (zipf * dict str) :=
    match t with
    | Obj _ _ _ _ _ kids =>
        do st1 <- (fix go l st := match l with [] => Ok st | k :: r => do s <- save_obj k st; go r s end) kids st;
        finish t st1
    end.
  Definition save_all (l : list gobj) (st : zipf * dict str) : res (zipf * dict str) :=
    (fix go l st := match l with [] => Ok st | k :: r => do s <- save_obj k st; go r s end) l st.

  (** gnomeobject.py 890-903: a new archive, then the two version files. *)
  Definition save (t : gobj) (version pyver : content) : res zipf :=
    do st <- save_obj t ([], []);
    Ok (fst st ++ [(lit "version.txt", Data version); (lit "pygnome_version.txt", Data pyver)]).

  (** ** Loading

      New objects are numbered in the order in which they are made. *)
  Record newobj := mkN { n_cls : Z; n_nm : str; n_dat : D; n_files : list (option entry); n_kids : list nat }.
  (** Keys of the dictionary of references: a file name, or for the object that is asked for the
      id that its json holds. *)
  Inductive key := KId (i : Z) | KFile (n : str).
  Definition key_eqb (a b : key) : bool :=
    match a, b with KId i, KId j => i =? j | KFile n, KFile m => seqb n m | _, _ => false end.
  Fixpoint kget (k : key) (l : list (key * nat)) : option nat :=
    match l with [] => None | (a, i) :: r => if key_eqb k a then Some i else kget k r end.
  Definition lstate := (list newobj * list (key * nat))%type.

  (** The folder into which the archive is extracted: the last member of a name wins. *)
  Definition folder := str -> option entry.
  Definition extracted (z : zipf) : folder := fun n => sget n (rev z).

  (** base_schema.py 528-541; a data file is not json. *)
  Definition read_json (fd : folder) (n : str) : res json :=
    match fd n with Some (Json j) => Ok j | Some (Data _) => Raise ValueErr | None => Raise OSErr end.

  (** base_schema.py 137-155; the data files are those of the folder (496-526). *)
  Definition deser (fd : folder) (k : key) (j : json) (kids : list nat) (st : lstate) : lstate * nat :=
    match kget k (snd st) with
    | Some i => (st, i)
    | None =>
        let i := length (fst st) in
        ((fst st ++ [mkN (j_cls j) (j_nm j) (j_dat j) (map fd (j_files j)) kids],
          snd st ++ [(k, i)]), i)
    end.

  (** base_schema.py 386-427: [fuel] bounds the depth of the recursion. *)
  Fixpoint load_json (fuel : nat) (fd : folder) (k : key) (j : json) (st : lstate) : res (lstate * nat) :=
    match fuel with
    | O => Raise RuntimeErr
    | S fuel' =>
        do js <- mapM (read_json fd) (j_kids j);
        do x <- (fix go (l : list (str * json)) (st : lstate) : res (lstate * list nat) :=
                   match l with
                   | [] => Ok (st, [])
                   | (n, j') :: r => do a <- load_json fuel' fd (KFile n) j' st; do b <- go r (fst a); Ok (fst b, snd a :: snd b)
                   end) (combine (j_kids j) js) st;
        Ok (deser fd k j (snd x) (fst x))
    end.

  (** gnomeobject.py 939-959, [cls.load(folder)] without a file name: the first json of the class,
      in the order [ls] in which the system lists the folder.  glob leaves out names that begin
      with a dot. *)
  Fixpoint find_cls (fd : folder) (cls : Z) (ls : list str) : res json :=
    match ls with
    | [] => Raise ValueErr
    | n :: r =>
        if endswith (lit ".json") n && negb (startswith [dot] n)
        then do j <- read_json fd n; if j_cls j =? cls then Ok j else find_cls fd cls r
        else find_cls fd cls r
    end.
  Definition load (fuel : nat) (fd : folder) (cls : Z) (ls : list str) : res (lstate * nat) :=
    do j <- find_cls fd cls ls; load_json fuel fd (KId (j_id j)) j ([], []).
End Save.
Arguments Obj {D}. Arguments o_id {D}. Arguments o_cls {D}. Arguments o_nm {D}. Arguments o_dat {D}. Arguments o_files {D}. Arguments o_kids {D}.
Arguments mkJ {D}. Arguments j_id {D}. Arguments j_cls {D}. Arguments j_nm {D}. Arguments j_dat {D}. Arguments j_files {D}. Arguments j_kids {D}.
Arguments Json {D}. Arguments Data {D}. Arguments in_zip {D}. Arguments pick {D}. Arguments gen_unique_filename {D}.
Arguments process_file {D}. Arguments process_files {D}. Arguments ref_name {D}. Arguments finish {D}. Arguments save_obj {D}. Arguments save_all {D}. Arguments save {D}.
Arguments mkN {D}. Arguments n_cls {D}. Arguments n_nm {D}. Arguments n_dat {D}. Arguments n_files {D}. Arguments n_kids {D}.
Arguments extracted {D}. Arguments read_json {D}. Arguments deser {D}. Arguments load_json {D}. Arguments find_cls {D}. Arguments load {D}.
