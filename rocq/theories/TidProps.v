(** * Properties of tide files and of files from the server *)

From Coq Require Import ZArith List Bool Lia String.
From Verif Require Import Py PyLemmas StrModel StrLemmas TidModel TidSpec TidProofs.
Import ListNotations.
Open Scope list_scope.
Open Scope Z_scope.

Definition line (s : string) : str := lit s ++ [10].
Definition shio_text : list str := [line "[StationInfo]"; line "Type=C"; line "Name=Here"; line "Latitude=1"; line "x"].
Definition ossm_text : list str := [line "a"; line "b"; line "c"; line "1,2,3,4,5,6,7"].
Ltac st s := exists (lit s ++ [10]); reflexivity.

(** ** C222: the kind of a tide file. *)
Theorem C222_kind_partial f : text f -> (2 <= List.length f)%nat ->
  (shio f -> obj_to_create f = Ok Shio) /\
  (~ shio f -> ossm f -> obj_to_create f = Ok Ossm) /\
  (~ shio f -> ~ ossm f -> obj_to_create f = Raise ValueErr).
Proof.
  intros T L. split; [exact (obj_shio f T) |]. split; intros NS; destruct (obj_rest f T L NS) as (A & B); assumption.
Qed.
Print Assumptions C222_kind_partial.
Example C222_kind_partial_meets : text shio_text /\ shio shio_text /\ text ossm_text /\ ossm ossm_text /\
  obj_to_create shio_text = Ok Shio /\ obj_to_create ossm_text = Ok Ossm /\ obj_to_create [line "a"; line "b"] = Raise ValueErr.
Proof.
  split; [repeat constructor; discriminate |]. split; [| split; [repeat constructor; discriminate |]].
  - exists (line "[StationInfo]"), (line "Type=C"), (line "Name=Here"), (line "Latitude=1"), [line "x"]. split; [reflexivity |]. split; [st ""%string | split; [st "C"%string | split; [st "Here"%string | st "1"%string]]].
  - split; [exists (line "a"), (line "b"), (line "c"), (line "1,2,3,4,5,6,7"), []; split; reflexivity | repeat split; vm_compute; reflexivity].
Qed.

(** A file of one line or none should be refused as the others are; it raises an IndexError. *)
Theorem C222_short_refuted f : text f -> (List.length f < 2)%nat -> ~ shio f /\ ~ ossm f /\ obj_to_create f = Raise IndexErr.
Proof.
  intros T L. split; [| split; [| exact (obj_short f L)]].
  - intros (a & b & c & d & r & -> & _). cbn [List.length] in L. lia.
  - intros (a & b & c & d & r & -> & _). cbn [List.length] in L. lia.
Qed.
Print Assumptions C222_short_refuted.
Example C222_short_refuted_meets : text [line "a"] /\ obj_to_create [line "a"] = Raise IndexErr.
Proof. split; [repeat constructor; discriminate | reflexivity]. Qed.

(** The new tide: the folder of the year data must be there, and is passed on for Shio; a scale factor that is given is used. *)
Theorem C222_new_partial ex fs f k y sc : obj_to_create f = Ok k ->
  (ex y = false -> new_tide ex fs f y sc = Raise OSErr) /\
  (ex y = true -> exists t, new_tide ex fs f y sc = Ok t /\ t_kind t = k /\ t_year t = Some y /\
     (k = Shio -> t_shio_path t = Some y) /\ (k = Ossm -> t_shio_path t = None) /\
     (sc = None -> t_scale t = fs) /\ (forall v, sc = Some v -> v <> 0 -> t_scale t = v)).
Proof.
  intros K. unfold new_tide. rewrite K. cbn [bind]. unfold set_yeardata. split; intros ->; cbn [negb bind t_kind t_year t_scale t_shio_path]; [reflexivity |].
  eexists. split; [reflexivity |]. cbn [t_kind t_year t_scale t_shio_path]. split; [reflexivity |]. split; [reflexivity |]. split; [intros ->; reflexivity |]. split; [intros ->; reflexivity |].
  split; [intros ->; reflexivity |]. intros v -> N. destruct (Z.eqb_spec v 0); [contradiction | reflexivity].
Qed.
Print Assumptions C222_new_partial.
Example C222_new_partial_meets : new_tide (fun _ => true) 5 shio_text (lit "y"%string) (Some 3) = Ok (Tide Shio (Some (lit "y"%string)) 3 (Some (lit "y"%string))) /\
  new_tide (fun _ => false) 5 ossm_text (lit "y"%string) None = Raise OSErr.
Proof. split; vm_compute; reflexivity. Qed.

(** A file that is refused makes no tide. *)
Theorem C222_new_refused ex fs f y sc e : obj_to_create f = Raise e -> new_tide ex fs f y sc = Raise e.
Proof. intros K. unfold new_tide. rewrite K. reflexivity. Qed.
Print Assumptions C222_new_refused.
Example C222_new_refused_meets : new_tide (fun _ => true) 5 [line "a"; line "b"] (lit "y"%string) None = Raise ValueErr.
Proof. vm_compute. reflexivity. Qed.

(** A scale factor of zero is not used. *)
Theorem C222_zero_refuted : ~ (forall ex fs f y v t, new_tide ex fs f y (Some v) = Ok t -> t_scale t = v).
Proof.
  intros H. specialize (H (fun _ => true) 5 shio_text (lit "y"%string) 0 _ eq_refl). vm_compute in H. discriminate H.
Qed.
Print Assumptions C222_zero_refuted.

(** ** C223: files from the server. *)
Theorem C223_get_partial server base d file sub reads content : sget file (d_files d) = None -> server (address base sub file) = Ok reads -> sends reads content ->
  exists ds, get_datafile server base d file sub = (ds, Ok file) /\ sget file (d_files (last ds d)) = Some content /\ same_but file d (last ds d).
Proof.
  intros N S1 (cs & r & -> & F & ->). unfold get_datafile. rewrite N, S1. cbv zeta. rewrite (until_sends cs r F). eexists. split; [reflexivity |].
  match goal with |- context [writes file ?x [] cs] => set (d1 := x) end.
  assert (DF : d_files d1 = d_files d) by (unfold d1; destruct (smem _ _); reflexivity).
  assert (L : last (d :: d1 :: writes file d1 [] cs) d = Disk (sset file (concat cs) (d_files d)) (d_dirs d1)).
  { rewrite <- DF. assert (W := writes_last file d1 cs [] d). cbn [app] in W. rewrite <- W. destruct cs; reflexivity. }
  rewrite L. cbn [d_files]. split; [rewrite sget_sset, seqb_refl; reflexivity |]. intros k K. cbn [d_files]. rewrite sget_sset. destruct (seqb k file) eqn:E; [apply seqb_iff in E; contradiction | reflexivity].
Qed.
Print Assumptions C223_get_partial.

(** The folder of a file is there before the file is, and no folder is lost. *)
Theorem C223_folder server base d dir c name sub d' : c <> slash -> ~ In slash name -> sget (dir ++ [c] ++ slash :: name) (d_files d) = None ->
  In d' (fst (get_datafile server base d (dir ++ [c] ++ slash :: name) sub)) ->
  (forall p, In p (d_dirs d) -> In p (d_dirs d')) /\ (sget (dir ++ [c] ++ slash :: name) (d_files d') <> None -> In (dir ++ [c]) (d_dirs d')).
Proof.
  intros C NS N. set (file := dir ++ [c] ++ slash :: name) in *. unfold get_datafile. rewrite N. destruct (server _) as [reads | e].
  2: { cbn [fst]. intros [<- | []]. split; [intros p P; exact P | intros X; contradiction]. }
  cbv zeta. assert (P0 : match dirname file with [] => lit "."%string | x :: t => x :: t end = dir ++ [c]).
  { unfold file. replace (dir ++ [c] ++ slash :: name) with ((dir ++ [c]) ++ slash :: name) by (rewrite <- app_assoc; reflexivity). rewrite (dirname_app dir c name C NS). destruct dir; reflexivity. }
  rewrite P0. cbn [fst]. match goal with |- context [writes file ?x [] _] => set (d1 := x) end.
  assert (DF : d_files d1 = d_files d) by (unfold d1; destruct (smem _ _); reflexivity).
  assert (D1 : (forall p, In p (d_dirs d) -> In p (d_dirs d1)) /\ In (dir ++ [c]) (d_dirs d1)).
  { unfold d1. destruct (smem _ _) eqn:M; cbn [d_dirs]; [apply smem_iff in M; split; [intros p P; exact P | exact M] | split; [intros p P; right; exact P | left; reflexivity]]. }
  intros [<- | [<- | I]].
  - split; [intros p P; exact P | intros X; contradiction].
  - split; [exact (proj1 D1) | intros _; exact (proj2 D1)].
  - apply writes_In in I. destruct I as (n & ->). cbn [d_dirs]. split; [exact (proj1 D1) | intros _; exact (proj2 D1)].
Qed.
Print Assumptions C223_folder.

(** A file that is there is not asked for, and a server that refuses changes nothing. *)
Theorem C223_there server base d file sub c : sget file (d_files d) = Some c -> get_datafile server base d file sub = ([d], Ok file).
Proof. intros N. unfold get_datafile. rewrite N. reflexivity. Qed.
Print Assumptions C223_there.
Theorem C223_refused server base d file sub e : sget file (d_files d) = None -> server (address base sub file) = Raise e -> get_datafile server base d file sub = ([d], Raise e).
Proof. intros N S1. unfold get_datafile. rewrite N, S1. reflexivity. Qed.
Print Assumptions C223_refused.

(** What is asked for: the name of the file in the subdirectory, with or without a slash at its end. *)
Theorem C223_address base sub c dir name : ~ In slash name -> c <> slash ->
  address base [] (dir ++ slash :: name) = base ++ name /\
  address base (sub ++ [c]) (dir ++ slash :: name) = base ++ (sub ++ [c]) ++ [slash] ++ name /\
  address base (sub ++ [c] ++ [slash]) (dir ++ slash :: name) = base ++ (sub ++ [c]) ++ [slash] ++ name.
Proof.
  intros N C. unfold address. rewrite (basename_app dir name N). split; [reflexivity |]. split.
  - destruct (sub ++ [c]) as [| x t] eqn:Q; [destruct sub; discriminate Q |]. rewrite <- Q. destruct (endswith [slash] (sub ++ [c])) eqn:E.
    + apply endswith_iff in E. destruct E as (u & E). apply app_inj_tail in E. destruct (C (proj2 E)).
    + rewrite <- !app_assoc. reflexivity.
  - replace (sub ++ [c] ++ [slash]) with ((sub ++ [c]) ++ [slash]) by (rewrite <- app_assoc; reflexivity). destruct ((sub ++ [c]) ++ [slash]) as [| x t] eqn:Q; [destruct (sub ++ [c]); discriminate Q |]. rewrite <- Q, endswith1, <- !app_assoc. reflexivity.
Qed.
Print Assumptions C223_address.

Definition a_server : str -> res (list (list Z)) := fun a => if seqb a (lit "http/sub/f"%string) then Ok [[1; 2]; [3]; []] else Raise OSErr.
Definition empty : disk := Disk [] [lit "."%string].
Example C223_folder_meets : In (Disk [(lit "here/f"%string, [1; 2])] [lit "here"%string; lit "."%string]) (fst (get_datafile a_server (lit "http/"%string) empty (lit "here/f"%string) (lit "sub"%string))).
Proof. vm_compute. right. right. right. left. reflexivity. Qed.
Example C223_there_meets : get_datafile a_server (lit "http/"%string) (Disk [(lit "f"%string, [9])] []) (lit "f"%string) [] = ([Disk [(lit "f"%string, [9])] []], Ok (lit "f"%string)).
Proof. reflexivity. Qed.
Example C223_address_meets : address (lit "http/"%string) (lit "sub"%string) (lit "here/f"%string) = lit "http/sub/f"%string /\ address (lit "http/"%string) (lit "sub/"%string) (lit "here/f"%string) = lit "http/sub/f"%string.
Proof. split; reflexivity. Qed.
Example C223_get_partial_meets :
  sget (lit "here/f"%string) (d_files empty) = None /\ sends [[1; 2]; [3]; []] [1; 2; 3] /\
  a_server (address (lit "http/"%string) (lit "sub"%string) (lit "here/f"%string)) = Ok [[1; 2]; [3]; []] /\
  sget (lit "here/f"%string) (d_files (last (fst (get_datafile a_server (lit "http/"%string) empty (lit "here/f"%string) (lit "sub"%string))) empty)) = Some [1; 2; 3] /\
  get_datafile a_server (lit "http/"%string) empty (lit "g"%string) [] = ([empty], Raise OSErr).
Proof.
  split; [reflexivity |]. split; [exists [[1; 2]; [3]], []; split; [reflexivity |]; split; [repeat constructor; discriminate | reflexivity] |]. repeat split; vm_compute; reflexivity.
Qed.

(** At any point where it is stopped the other files are as they were, and the file is not there or is the start of what is sent. *)
Theorem C223_crash_partial server base d file sub reads content d' : sget file (d_files d) = None -> server (address base sub file) = Ok reads -> sends reads content ->
  In d' (fst (get_datafile server base d file sub)) ->
  same_but file d d' /\ (sget file (d_files d') = None \/ exists a b, content = a ++ b /\ sget file (d_files d') = Some a).
Proof.
  intros N S1 (cs & r & -> & F & ->). unfold get_datafile. rewrite N, S1. cbv zeta. rewrite (until_sends cs r F). cbn [fst].
  match goal with |- context [writes file ?x [] cs] => set (d1 := x) end.
  assert (DF : d_files d1 = d_files d) by (unfold d1; destruct (smem _ _); reflexivity). intros [<- | [<- | I]].
  - split; [intros k _; reflexivity | left; exact N].
  - split; [intros k _; rewrite DF; reflexivity | left; rewrite DF; exact N].
  - apply writes_In in I. destruct I as (n & ->). cbn [app d_files]. rewrite DF. split.
    + intros k K. cbn [d_files]. rewrite sget_sset. destruct (seqb k file) eqn:E; [apply seqb_iff in E; contradiction | reflexivity].
    + right. exists (concat (firstn n cs)), (concat (skipn n cs)). split; [rewrite <- concat_app, firstn_skipn; reflexivity | rewrite sget_sset, seqb_refl; reflexivity].
Qed.
Print Assumptions C223_crash_partial.
Example C223_crash_partial_meets : In (Disk [(lit "f"%string, [1; 2])] [lit "."%string]) (fst (get_datafile a_server (lit "http/"%string) empty (lit "f"%string) (lit "sub"%string))).
Proof. vm_compute. right. right. right. left. reflexivity. Qed.

(** Asking again after it was stopped should give the whole file: a part of it is taken for the file. *)
Theorem C223_crash_refuted : ~ (forall server base d file sub reads content d', sget file (d_files d) = None -> server (address base sub file) = Ok reads -> sends reads content ->
  In d' (fst (get_datafile server base d file sub)) -> sget file (d_files (last (fst (get_datafile server base d' file sub)) d')) = Some content).
Proof.
  intros H. specialize (H a_server (lit "http/"%string) empty (lit "f"%string) (lit "sub"%string) [[1; 2]; [3]; []] [1; 2; 3] (Disk [(lit "f"%string, [1; 2])] [lit "."%string])).
  assert (X : sends [[1; 2]; [3]; []] [1; 2; 3]) by (exists [[1; 2]; [3]], []; split; [reflexivity |]; split; [repeat constructor; discriminate | reflexivity]).
  specialize (H eq_refl ltac:(vm_compute; reflexivity) X C223_crash_partial_meets). vm_compute in H. discriminate H.
Qed.
Print Assumptions C223_crash_refuted.
