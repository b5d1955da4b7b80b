(** * Save archives: extraction, validation, and the references between saved objects

    Models [py_gnome/gnome/persist/save_load.py] ([References] 44-121, the archive part of [load]
    144-162, [is_savezip_valid] 516-587, [zipfile_folders] 590-599, [extract_zipfile] 602-609) and
    [py_gnome/gnome/utilities/save_updater.py] ([extract_zipfile] 431-479, [sanitize_filename]
    482-494). *)
From Coq Require Import QArith String.
From Verif Require Import Py StrModel.
Open Scope Z_scope.

(** ** The file system

    Absolute paths are lists of components.  No symbolic links.  [fs_deny] stands for every
    reason for which the system may refuse to open a file for writing (permissions, name too
    long, disk full, ...). *)
Definition path := list str.
Definition path_eq_dec : forall a b : path, {a = b} + {a <> b} := list_eq_dec str_eq_dec.
Definition peqb (a b : path) : bool := if path_eq_dec a b then true else false.

Definition content := str.
Record fs := mkFs { fs_cwd : path; fs_dirs : list path; fs_files : list (path * content); fs_deny : path -> bool }.

Definition is_dir (f : fs) (p : path) : bool := existsb (peqb p) (fs_dirs f).

Fixpoint lookup (p : path) (l : list (path * content)) : option content :=
  match l with
  | [] => None
  | (q, c) :: r => if peqb p q then Some c else lookup p r
  end.
Fixpoint store (p : path) (c : content) (l : list (path * content)) : list (path * content) :=
  match l with
  | [] => [(p, c)]
  | (q, d) :: r => if peqb p q then (q, c) :: r else (q, d) :: store p c r
  end.

(** Path resolution by the system: every component but the last is looked up in a directory;
    empty components and [.] stay, [..] goes to the parent. *)
Fixpoint walk (f : fs) (cur : path) (cs : list str) : res path :=
  match cs with
  | [] => Ok cur
  | c :: r =>
      if negb (is_dir f cur) then Raise OSErr
      else if seqb c [] || seqb c [dot] then walk f cur r
      else if seqb c [dot; dot] then walk f (removelast cur) r
      else walk f (cur ++ [c]) r
  end.

(** The file that [open(p, 'wb')] opens: null characters are refused by Python, the empty path
    and directories (also a name with a trailing slash) by the system. *)
Definition resolve (f : fs) (p : str) : res path :=
  if existsb (Z.eqb 0) p then Raise ValueErr
  else if seqb p [] then Raise OSErr
  else walk f (if startswith [slash] p then [] else fs_cwd f) (split_on slash p).

Definition open_w (f : fs) (p : str) : res path :=
  do q <- resolve f p;
  if endswith [slash] p || is_dir f q || fs_deny f q then Raise OSErr else Ok q.

Definition write (f : fs) (q : path) (c : content) : fs :=
  mkFs (fs_cwd f) (fs_dirs f) (store q c (fs_files f)) (fs_deny f).

(** ** Archives

    A member: its name, its sizes in the archive's directory, and what reading it gives.
    [ZipFile.read(name)] reads the last member of that name.  [zi_data] is an exception when
    the data are damaged or encrypted. *)
Record member := mkMem { zi_name : str; zi_size : Z; zi_csize : Z; zi_data : res content }.
Definition archive := list member.
Definition namelist (z : archive) : list str := map zi_name z.

Definition zread (z : archive) (n : str) : res content :=
  match find (fun m => seqb n (zi_name m)) (rev z) with Some m => zi_data m | None => Raise KeyErr end.

(** save_load.py 590-599. *)
Definition zipfile_folders (z : archive) : list str :=
  filter (fun n => endswith [slash] n && negb (startswith (lit "__MACOSX") n)) (namelist z).

(** save_load.py 604-605, save_updater.py 442-444: the members that are passed over. *)
Definition skipped (prefix n : str) : bool :=
  (truthy prefix && negb (py_find prefix n =? 0)) || endswith [slash] n.

(** [with open(target, 'wb') as f: f.write(zf.read(name))]: the file is created or emptied
    before the member is read (save_load.py 608-609, save_updater.py 453-454). *)
Definition write_member (z : archive) (n target : str) (f : fs) : fs * res unit :=
  match open_w f target with
  | Raise e => (f, Raise e)
  | Ok q =>
      match zread z n with
      | Raise e => (write f q [], Raise e)
      | Ok c => (write f q c, Ok tt)
      end
  end.

(** save_load.py 602-609.  The state of the file system is kept when an exception stops the
    loop. *)
Fixpoint extract_names (z : archive) (folder prefix : str) (ns : list str) (f : fs) : fs * res unit :=
  match ns with
  | [] => (f, Ok tt)
  | n :: r =>
      if skipped prefix n then extract_names z folder prefix r f
      else match write_member z n (path_join folder (basename n)) f with
           | (f', Ok _) => extract_names z folder prefix r f'
           | (f', Raise e) => (f', Raise e)
           end
  end.
Definition extract_zipfile (z : archive) (folder prefix : str) (f : fs) : fs * res unit :=
  extract_names z folder prefix (namelist z) f.

(** [os.path.isdir]: False for the empty path. *)
Definition isdir (f : fs) (p : str) : bool := match resolve f p with Ok q => is_dir f q | Raise _ => false end.
Definition isfile (f : fs) (p : str) : bool :=
  match resolve f p with Ok q => match lookup q (fs_files f) with Some _ => negb (endswith [slash] p) | None => false end | Raise _ => false end.

(** save_load.py 144-171, [load] of an archive up to the point where the json is opened: the
    folder in which it is then looked up, or [None] when [load] gives up and returns None. *)
Definition load_archive (z : archive) (saveloc : str) (f : fs) : fs * res (option str) :=
  let d := dirname saveloc in
  let go prefix :=
    let x := extract_zipfile z d prefix f in
    (fst x, match snd x with
            | Ok _ => Ok (if isdir (fst x) d || isfile (fst x) d then Some d else None)
            | Raise e => Raise e
            end) in
  match zipfile_folders z with
  | [p] => go p
  | [] => go []
  | _ => (f, Ok None)
  end.

(** save_updater.py 482-494: [re.sub] removes backslash, slash, star, question mark, colon,
    double quote, angle brackets and bar. *)
Definition illegal : list Z := [92; 47; 42; 63; 58; 34; 60; 62; 124].
Definition sanitize_filename (n : str) : str := filter (fun c => negb (zmem c illegal)) n.

(** save_updater.py 441-454; [ed] is the dictionary [fn_edits]. *)
Fixpoint upd_names (z : archive) (folder prefix : str) (ns : list str) (ed : list (str * str)) (f : fs)
  : fs * res (list (str * str)) :=
  match ns with
  | [] => (f, Ok ed)
  | n :: r =>
      if skipped prefix n then upd_names z folder prefix r ed f
      else
        let orig := basename n in
        let fn := sanitize_filename orig in
        let ed' := if seqb orig fn then ed else sset orig fn ed in
        match write_member z n (path_join folder fn) f with
        | (f', Ok _) => upd_names z folder prefix r ed' f'
        | (f', Raise e) => (f', Raise e)
        end
  end.

(** save_updater.py 458, [glob.glob(os.path.join(to_folder, '*.json'))]: the files of the folder
    whose name ends in .json and does not begin with a dot.  The folder's own name is assumed
    free of glob's special characters; directories with such names are left out (opening one
    would raise). *)
Definition json_files (f : fs) (base : path) : list path :=
  filter (fun p => peqb (removelast p) base && negb (startswith [dot] (last p []))
                   && endswith (lit ".json") (last p []))
         (map fst (fs_files f)).

(** save_updater.py 458-471: textual replacement of the edited names.  [decode] is the reading
    of a file as UTF-8, which may fail; text and bytes are not distinguished otherwise.  Keys of
    [ed] are not empty: see [upd_names]. *)
Fixpoint replace_all (ed : list (str * str)) (c : content) : content * bool :=
  match ed with
  | [] => (c, false)
  | (k, v) :: r =>
      if str_in k c then (fst (replace_all r (py_replace k v c)), true) else replace_all r c
  end.
Fixpoint rewrite_files (decode : content -> bool) (ed : list (str * str)) (ps : list path) (f : fs) : fs * res unit :=
  match ps with
  | [] => (f, Ok tt)
  | p :: r =>
      match lookup p (fs_files f) with
      | None => (f, Raise OSErr)
      | Some c =>
          if negb (decode c) then (f, Raise ValueErr)
          else let x := replace_all ed c in
               if snd x
               then if fs_deny f p then (f, Raise OSErr)
                    else rewrite_files decode ed r (write f p (fst x))
               else rewrite_files decode ed r f
      end
  end.

(** save_updater.py 431-479; [base] is the directory that [to_folder] denotes. *)
Definition upd_extract (decode : content -> bool) (z : archive) (folder : str) (base : path) (f : fs) : fs * res unit :=
  let prefix := match zipfile_folders z with [p] => p | _ => [] end in
  match upd_names z folder prefix (namelist z) [] f with
  | (f', Raise e) => (f', Raise e)
  | (f', Ok ed) =>
      match ed with
      | [] => (f', Ok tt)
      | _ => rewrite_files decode ed (json_files f' base) f'
      end
  end.

(** ** Validation

    [testzip] (zipfile) reads every member through its ZipInfo: a damaged member is returned, any
    other exception propagates.  Damage is [RuntimeErr] here; every other exception stands for
    itself. *)
Fixpoint testzip (z : archive) : res (option str) :=
  match z with
  | [] => Ok None
  | m :: r => match zi_data m with
              | Ok _ => testzip r
              | Raise RuntimeErr => Ok (Some (zi_name m))
              | Raise e => Raise e
              end
  end.

(** save_load.py 553-584, the loop.  The quotient of two sizes is exact (the code's is a float). *)
Definition Qgtb (a b : Q) : bool := negb (Qle_bool a b).
Fixpoint check_members (max_json : Z) (max_ratio : Q) (z : archive) : bool :=
  match z with
  | [] => true
  | m :: r =>
      if seqb (snd (splitext (zi_name m))) (lit ".json") && (max_json <? zi_size m) then false
      else if (0 <? zi_csize m) && Qgtb (inject_Z (zi_size m) / inject_Z (zi_csize m)) max_ratio then false
      else if str_in (lit "..") (zi_name m) then false
      else check_members max_json max_ratio r
  end.

(** save_load.py 516-587; [None] is a file that [is_zipfile] refuses. *)
Definition is_savezip_valid (max_json : Z) (max_ratio : Q) (z : option archive) : bool :=
  match z with
  | None => false
  | Some z =>
      match testzip z with
      | Raise _ => false
      | Ok (Some _) => false
      | Ok None => check_members max_json max_ratio z
      end
  end.

(** ** References

    Objects are numbered: [Z.eqb] is the identity test.  [cls] gives the name of an object's
    class and [tr] its truth value: several savable classes define [__len__]. *)
Section Refs.
  Variable cls : Z -> str.
  Variable tr : Z -> bool.
  Definition refs := list (str * Z).

  (** save_load.py 114-121. *)
  Definition retrieve (r : refs) (k : str) : option Z := sget k r.

  (** save_load.py 65-73. *)
  Fixpoint get_reference (r : refs) (o : Z) : option str :=
    match r with
    | [] => None
    | (k, x) :: r' => if x =? o then Some k else get_reference r' o
    end.

  (** save_load.py 54-58. *)
  Definition contains (r : refs) (o : Z) : bool :=
    match get_reference r o with Some k => truthy k | None => false end.

  (** The truth value of [self.retrieve(name)]. *)
  Definition retrieved (r : refs) (k : str) : bool := match retrieve r k with Some x => tr x | None => false end.

  (** save_load.py 75-89. *)
  Definition add_with_name (r : refs) (o : Z) (name : str) : res refs :=
    if retrieved r name
    then match retrieve r name with
         | Some x => if x =? o then Ok r else Raise ValueErr
         | None => Raise ValueErr
         end
    else if contains r o then Raise ValueErr
    else Ok (sset name o r).

  (** save_load.py 109: the automatic name. *)
  Definition auto_name (c : str) (n : nat) : str := c ++ underscore :: str_nat n ++ lit ".json".

  (** save_load.py 91-112.  With a name the code returns None. *)
  Definition reference (r : refs) (o : Z) (name : option str) : res (refs * option str) :=
    match name with
    | Some n => do r' <- add_with_name r o n; Ok (r', None)
    | None =>
        match get_reference r o with
        | Some k => Ok (r, Some k)
        | None => let k := auto_name (cls o) (length r) in Ok (sset k o r, Some k)
        end
    end.
End Refs.
