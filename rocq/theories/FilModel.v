(** * Files written by the outputters

    Models gnome/outputters/binary.py (BinaryOutput: its numbered files, the
    archive made of them and the contents of a file), geo_json.py:63-219
    (TrajectoryGeoJsonOutput), weathering.py:77-119 (WeatheringOutput),
    oil_budget.py (OilBudgetOutput) and kmz.py (KMZOutput), with the calls the model
    makes (model.py:932-939, 953-955, 1138-1150, 1198, 1202-1225).

    A loose file is known by directory, stem, kind and number; the name with the
    number on at least three digits is taken to be different for different numbers.
    Directory 0 is the empty one, that of a file name without directory.  Contents of
    files are opaque except where a section below models them.  The file system
    fails only where a file is missing or a name is taken.  Left out: the text of the
    KML, of the JSON and of the numbers, 32-bit rounding in the binary files, ice and
    image outputters, shape files. *)
From Coq Require Import QArith Qround.
From Verif Require Import Py TimeModel OutModel.
Open Scope Z_scope.

(** ** Numbered files and the archive *)

(** binary.py:149-153, 243, 249: directory and stem are those of self.name, the
    kind is UNCRTN ([true]) or FORCST, and the number is file_num. *)
Record path := Path { p_dir : Z; p_stem : Z; p_unc : bool; p_num : Z }.
Definition path_eqb (a b : path) : bool :=
  (p_dir a =? p_dir b) && (p_stem a =? p_stem b) && Bool.eqb (p_unc a) (p_unc b) && (p_num a =? p_num b).

Section Files.
Variable C : Type.

(** The loose files, and the archives by directory and stem. *)
Record world := World { w_loose : list (path * C); w_zip : list ((Z * Z) * list (bool * Z * C)) }.

Definition fget (p : path) (l : list (path * C)) : option C :=
  match find (fun kv => path_eqb (fst kv) p) l with Some kv => Some (snd kv) | None => None end.
Definition fdel (p : path) (l : list (path * C)) : list (path * C) :=
  filter (fun kv => negb (path_eqb (fst kv) p)) l.

Definition zip_key_eqb (a b : Z * Z) : bool := (fst a =? fst b) && (snd a =? snd b).
(** zipfile.ZipFile(name, 'w'): a new archive in place of an old one. *)
Definition zip_new (k : Z * Z) (w : world) : world :=
  World (w_loose w) ((k, []) :: filter (fun kv => negb (zip_key_eqb (fst kv) k)) (w_zip w)).
(** zipf.write: one more member. *)
Definition zip_add (k : Z * Z) (e : bool * Z * C) (w : world) : world :=
  World (w_loose w) (map (fun kv => if zip_key_eqb (fst kv) k then (fst kv, snd kv ++ [e]) else kv) (w_zip w)).

(** Attributes of a BinaryOutput, binary.py:64-83, 128-129; [b_done] is cleaned_up. *)
Record bin := Bin { b_dir : Z; b_stem : Z; b_zip : bool; b_on : bool; b_num : Z; b_unc : bool; b_done : bool }.
Definition set_num (b : bin) n := Bin (b_dir b) (b_stem b) (b_zip b) (b_on b) n (b_unc b) (b_done b).
Definition set_done (b : bin) d := Bin (b_dir b) (b_stem b) (b_zip b) (b_on b) (b_num b) (b_unc b) d.

Definition own (b : bin) (u : bool) (n : Z) : path := Path (b_dir b) (b_stem b) u n.

(** What a call leaves: files, outputter, and the exception if there is one. *)
Definition out : Type := world * bin * option exc.

(** outputter.py:403-413 (rewind). *)
Definition bin_rewind (b : bin) : bin := set_done b false.

(** binary.py:256-271 (clean_output_files). *)
Definition clean (b : bin) (w : world) : world :=
  if b_dir b =? 0 then w
  else World (filter (fun kv => negb (p_dir (fst kv) =? b_dir b)) (w_loose w)) (w_zip w).

(** binary.py:86-129 (prepare_for_model_run). *)
Definition bin_prepare (unc : bool) (w : world) (b : bin) : world * bin :=
  if negb (b_on b) then (w, b)
  else (clean b w, Bin (b_dir b) (b_stem b) (b_zip b) (b_on b) 0 unc (b_done b)).

(** binary.py:145-157: the files of one step; [scs] are the containers of the step,
    each with its [uncertain] flag. *)
Fixpoint write_scs (b : bin) (scs : list (bool * C)) (w : world) : world * option exc :=
  match scs with
  | [] => (w, None)
  | (u, c) :: r =>
      match fget (own b u (b_num b)) (w_loose w) with
      | Some _ => (w, Some ValueErr)
      | None => write_scs b r (World (w_loose w ++ [(own b u (b_num b), c)]) (w_zip w))
      end
  end.

(** binary.py:243-247 and 248-252: one file moved to the archive. *)
Definition move_file (b : bin) (u : bool) (i : Z) (w : world) : world * option exc :=
  match fget (own b u i) (w_loose w) with
  | None => (w, Some OSErr)
  | Some c =>
      let w := zip_add (b_dir b, b_stem b) (u, i, c) w in
      (World (fdel (own b u i) (w_loose w)) (w_zip w), None)
  end.

(** binary.py:242-252: [n] numbers from [i] on. *)
Fixpoint zip_from (b : bin) (n : nat) (i : Z) (w : world) : world * option exc :=
  match n with
  | O => (w, None)
  | S n =>
      match move_file b false i w with
      | (w, Some e) => (w, Some e)
      | (w, None) =>
          if b_unc b then
            match move_file b true i w with
            | (w, Some e) => (w, Some e)
            | (w, None) => zip_from b n (i + 1) w
            end
          else zip_from b n (i + 1) w
      end
  end.

(** binary.py:237-254 (_zip_binary_files). *)
Definition zip_files (b : bin) (num : Z) (w : world) : world * option exc :=
  if b_zip b then zip_from b (Z.to_nat num) 0 (zip_new (b_dir b, b_stem b) w) else (w, None).

(** binary.py:132-173 (write_output); [flag] is _write_step after the base class. *)
Definition bin_write (islast flag : bool) (scs : list (bool * C)) (w : world) (b : bin) : out :=
  if negb (b_on b) then (w, b, None)
  else
    match (if flag then write_scs b scs w else (w, None)) with
    | (w, Some e) => (w, b, Some e)
    | (w, None) =>
        match (if islast then zip_files b (b_num b + 1) w else (w, None)) with
        | (w, Some e) => (w, b, Some e)
        | (w, None) =>
            let b := if islast then set_done b true else b in
            (w, (if flag then set_num b (b_num b + 1) else b), None)
        end
    end.

(** binary.py:273-280 (post_model_run), called if the outputter is on (model.py:954). *)
Definition bin_post (w : world) (b : bin) : out :=
  if negb (b_on b) then (w, b, None)
  else if b_done b then (w, b, None)
  else
    match zip_files b (b_num b) w with
    | (w, Some e) => (w, b, Some e)
    | (w, None) => (w, set_done b true, None)
    end.

(** A time step: [None] if something else fails in it before the output. *)
Definition step_ev : Type := option (bool * list (bool * C)).

(** model.py:1165-1225: steps [k], [k+1], ... of [n].  If a step but the first fails,
    post_model_run is called and the exception goes on, unless post_model_run raises
    one itself.  After the last step the next call ends the run and calls
    post_model_run; with fewer events than [n] the caller has stopped stepping. *)
Fixpoint run_from (n k : Z) (evs : list step_ev) (w : world) (b : bin) : out :=
  let fail e w b :=
    if k =? 0 then (w, b, Some e)
    else match bin_post w b with
         | (w, b, Some e') => (w, b, Some e')
         | (w, b, None) => (w, b, Some e)
         end in
  match evs with
  | [] => if k =? n then bin_post w b else (w, b, None)
  | None :: _ => fail RuntimeErr w b
  | Some (flag, scs) :: r =>
      match bin_write (k =? n - 1) flag scs w b with
      | (w, b, Some e) => fail e w b
      | (w, b, None) => run_from n (k + 1) r w b
      end
  end.

(** A run from the start: model.py:418-419, 932-939, then the steps. *)
Definition bin_run (unc : bool) (n : Z) (evs : list step_ev) (w : world) (b : bin) : out :=
  let '(w, b) := bin_prepare unc w (bin_rewind b) in run_from n 0 evs w b.

End Files.
Arguments World {C}. Arguments w_loose {C}. Arguments w_zip {C}.

(** ** The contents of a binary file *)
Section Contents.
Open Scope Q_scope.

(** binary.py:22-31 (le_dtype). *)
Record le := Le { e_lat : Q; e_lon : Q; e_rel : Q; e_agerel : Q; e_beach : Q; e_map : Z }.
(** binary.py:33-43 (header_dtype). *)
Record header := Header { h_d : Z; h_mo : Z; h_y : Z; h_h : Z; h_mi : Z; h_time : Q; h_n : Z }.

(** An element: position, age in seconds, status code. *)
Record elem := Elem { x_lon : Q; x_lat : Q; x_dep : Q; x_age : Z; x_status : Z }.

(** basic_types.py: oil_status.on_land. *)
Definition ON_LAND : Z := 3.
Definition IN_WATER : Z := 2.

(** numpy clip(min=0). *)
Definition clip0 (x : Q) : Q := if Qle_bool 0 x then x else 0.

(** binary.py:175-230 (output_to_file); time zone fixed, so that date_to_sec of two
    times differs by their difference in whole seconds. *)
Definition encode (f : fields) (l : list elem) : res (header * list le) :=
  let ref := mkFields (f_y f - f_y f mod 4) 1 1 0 0 0 0 in
  do o <- datetime_new ref;
  let seconds := (fields_us f / sec_us - o / sec_us)%Z in
  let current := inject_Z seconds / 3600 in
  let one x :=
    let rel := inject_Z (fields_us f / sec_us - x_age x - o / sec_us)%Z / 3600 in
    Le (x_lat x) (-1 * x_lon x) rel (clip0 (0 - (current - rel)))
       (if (x_status x =? ON_LAND)%Z then -50 else 0) 1 in
  Ok (Header (f_d f) (f_mo f) (f_y f) (f_h f) (f_mi f) current (Z.of_nat (length l)), map one l).
End Contents.

(** ** The table of the oil budget *)
Section Budget.

(** oil_budget.py:124-129: hours and minutes since the start, [us] microseconds. *)
Definition row_hours (us : Z) : Q :=
  let hours := us / (3600 * sec_us) in
  let minutes := (us - hours * (3600 * sec_us)) / (60 * sec_us) in
  (inject_Z hours + inject_Z minutes / 60)%Q.

(** oil_budget.py:36-43 (budget_categories), by number. *)
Definition categories : list Z := [1; 2; 3; 4; 5; 6; 7].

(** A row: model time, hours, one cell per category. *)
Definition row : Type := Z * Q * list (option Q).

(** oil_budget.py:119-138, weathering.py:26-33: the row of a step, from the mass balance of
    its first container. *)
Definition budget_row (mstart t : Z) (mb : list (Z * Q)) : row :=
  (t, row_hours (t - mstart), map (fun c => dget c mb) categories).

(** oil_budget.py:59-84: the attributes a caller's [on] and [ts] give. *)
Definition budget_cfg (on : bool) (ts : option Z) : cfg := mkCfg true ts true true false None.

(** oil_budget.py:86-140, model.py:932-979, 1138-1150: the rows of a run of [n] steps; [mbs] is the
    mass balance at each step. *)
Definition budget_run (c : cfg) (s0 : ost) (mstart ts : Z) (n : nat) (mbs : Z -> list (Z * Q)) : res (list row) :=
  do l <- live_run c s0 mstart ts n;
  Ok (map (fun k => budget_row mstart (mstart + k * ts * sec_us) (mbs k)) l).
End Budget.

(** ** GeoJSON and weathering files *)
Section Json.
Open Scope Q_scope.

(** numpy round to an integer, halves to even. *)
Definition rint (x : Q) : Z :=
  let f := Qfloor x in
  match Qcompare (x - inject_Z f) (1 # 2) with
  | Lt => f
  | Gt => (f + 1)%Z
  | Eq => if Z.even f then f else (f + 1)%Z
  end.

(** numpy round to [k] digits. *)
Definition np_round (k : Z) (x : Q) : Q :=
  inject_Z (rint (x * inject_Z (10 ^ k))) / inject_Z (10 ^ k).

(** An element as GeoJSON shows it. *)
Record feature := Feature { t_lon : Q; t_lat : Q; t_status : Z; t_unc : bool; t_mass : Q; t_spill : Z }.
Record particle := Particle { q_lon : Q; q_lat : Q; q_dep : Q; q_status : Z; q_mass : Q; q_spill : Z }.

(** Attributes, geo_json.py:76-98. *)
Record geo := Geo { g_round : bool; g_digits : Z; g_dir : bool }.

(** geo_json.py:182-208 (_dataarray_p_types), a float array: round_data is not asked. *)
Definition p_float (g : geo) (x : Q) : Q := np_round (g_digits g) x.

(** geo_json.py:127-155. *)
Definition feat (g : geo) (u : bool) (p : particle) : feature :=
  Feature (p_float g (q_lon p)) (p_float g (q_lat p)) (q_status p) u (p_float g (q_mass p)) (q_spill p).
Definition feats (g : geo) (want : bool) (scs : list (bool * list particle)) : list feature :=
  flat_map (fun sc => if Bool.eqb (fst sc) want then map (feat g (fst sc)) (snd sc) else []) scs.

(** geo_json.py:171-180 (output_to_file): the file of the step is written anew. *)
Definition geo_file (g : geo) (k : Z) (l : list feature) (fs : list (Z * list feature)) : list (Z * list feature) :=
  dset k l fs.

(** geo_json.py:114-169 (write_output): what is returned and the files. *)
Definition geo_write (g : geo) (flag : bool) (k : Z) (scs : list (bool * list particle)) (fs : list (Z * list feature))
  : option (list feature * list feature) * list (Z * list feature) :=
  if negb flag then (None, fs)
  else
    let c := feats g false scs in
    let u := feats g true scs in
    let fs := if g_dir g then geo_file g k u (geo_file g k c fs) else fs in
    (Some (c, u), fs).

(** geo_json.py:210-219 (clean_output_files), by prepare_for_model_run. *)
Definition geo_clean (g : geo) (fs : list (Z * list feature)) : list (Z * list feature) :=
  if g_dir g then [] else fs.

(** A run: step [k], [k+1], ...: each with its flag. *)
Fixpoint geo_steps (g : geo) (k : Z) (steps : list (bool * list (bool * list particle))) (fs : list (Z * list feature)) :=
  match steps with
  | [] => fs
  | (flag, scs) :: r => geo_steps g (k + 1) r (snd (geo_write g flag k scs fs))
  end.
Definition geo_run (g : geo) steps (fs : list (Z * list feature)) := geo_steps g 0 steps (geo_clean g fs).
End Json.

(** ** Outputters that are off *)

Inductive kind := KBinary | KKmz | KGeoJson | KWeathering | KBudget | KIce | KNetcdf.

(** Whether a call of write_output writes, given [on] and _write_step: binary.py:140-145,
    kmz.py:117-122, geo_json.py:118, weathering.py:88, oil_budget.py:117, geo_json.py:291,
    netcdf.py:735-741. *)
Definition writes (k : kind) (on flag : bool) : bool :=
  match k with
  | KBinary | KKmz | KBudget | KIce | KNetcdf => on && flag
  | KGeoJson | KWeathering => flag
  end.

(** Whether prepare_for_model_run does something: binary.py:124, kmz.py:90, netcdf.py:569. *)
Definition prepares (k : kind) (on : bool) : bool :=
  match k with KBinary | KKmz | KNetcdf => on | _ => true end.

(** Of an outputter in a model: its [on]; whether it has a cache, which adding it to
    the model after the model is made gives it (model.py:264, 351, 1379-1382) and so does
    preparing it; and _single_output_at_start, which only preparing it sets. *)
Record oatt := Oatt { a_cache : bool; a_single : option bool; a_ost : ost }.

(** rewind and prepare_for_model_run, outputter.py:183-266, 403-413. *)
Definition att_prepare (k : kind) (c : cfg) (mstart : Z) (a : oatt) : oatt :=
  let s := o_rewind (a_ost a) in
  if prepares k (c_on c) then
    let s := o_prepare_run c mstart s in Oatt true (Some (o_single0 s)) s
  else Oatt (a_cache a) (a_single a) s.

(** outputter.py:342-367 (write_output): the flag, or the exception of a missing
    attribute or a missing cache. *)
Definition att_write (c : cfg) (k : Z) (islast : bool) (a : oatt) : res oatt :=
  do s <- (if k =? 0 then
             if c_zero c then Ok (set_write (a_ost a) true)
             else match a_single a with
                  | None => Raise AttrErr
                  | Some b => Ok (set_write (a_ost a) b)
                  end
           else Ok (a_ost a));
  let s := if islast && c_last c then set_write s true else s in
  if o_write s && negb (a_cache a) then Raise ValueErr
  else Ok (Oatt (a_cache a) (a_single a) s).

(** Which of the steps [k], [k+1], ... are written, as OutModel.steps. *)
Fixpoint kind_steps (kd : kind) (c : cfg) (ts mstart n : Z) (fuel : nat) (k : Z) (a : oatt) : res (list Z) :=
  match fuel with
  | O => Ok []
  | S fuel =>
      do s1 <- o_prepare_step c ts (mstart + (k - 1) * ts * sec_us) (a_ost a);
      do a2 <- att_write c k (k =? n - 1) (Oatt (a_cache a) (a_single a) s1);
      do r <- kind_steps kd c ts mstart n fuel (k + 1) a2;
      Ok (if writes kd (c_on c) (o_write (a_ost a2)) then k :: r else r)
  end.

(** A run of [n] steps, as OutModel.live_run. *)
Definition kind_run (kd : kind) (c : cfg) (a : oatt) (mstart ts : Z) (n : nat) : res (list Z) :=
  match n with
  | O => Ok []
  | S m =>
      do a1 <- att_write c 0 (0 =? Z.of_nat n - 1) (att_prepare kd c mstart a);
      do r <- kind_steps kd c ts mstart (Z.of_nat n) m 1 a1;
      Ok (if writes kd (c_on c) (o_write (a_ost a1)) then 0 :: r else r)
  end.

(** ** Layers of the KMZ file *)
Section Kmz.

(** kmz_templates.build_one_timestep: a layer shows points between two times. *)
Record layer := Layer { l_from : Z; l_to : Z; l_unc : bool; l_water : list (Q * Q); l_beached : list (Q * Q) }.

(** kmz.py:124-130: the end of the layer; [dt] is the model's time step in seconds. *)
Definition layer_end (T : option Z) (dt t : Z) : Z :=
  t + match T with None => dt | Some T => T end * sec_us.

Definition points (st : Z) (l : list elem) : list (Q * Q) :=
  map (fun x => (x_lon x, x_lat x)) (filter (fun x => x_status x =? st) l).

(** kmz.py:121-146. *)
Definition step_layers (T : option Z) (dt t : Z) (scs : list (bool * list elem)) : list layer :=
  map (fun sc => Layer t (layer_end T dt t) (fst sc) (points IN_WATER (snd sc)) (points ON_LAND (snd sc))) scs.

(** What is in the KML list: the header, layers, footers. *)
Inductive piece := PHead | PLayer (l : layer) | PFoot.
Record kmz := Kmz { z_kml : list piece; z_done : bool; z_file : option (list piece) }.

(** kmz.py:53-107, outputter.py:403-415: rewind and prepare_for_model_run of one that is on. *)
Definition kmz_prepare (z : kmz) : kmz := Kmz [PHead] false None.

Definition kmz_finish (z : kmz) : kmz :=
  let k := z_kml z ++ [PFoot] in Kmz k true (Some k).

(** kmz.py:110-165 (write_output). *)
Definition kmz_write (T : option Z) (dt : Z) (islast flag : bool) (t : Z) (scs : list (bool * list elem)) (z : kmz) : kmz :=
  let z := if flag then Kmz (z_kml z ++ map PLayer (step_layers T dt t scs)) (z_done z) (z_file z) else z in
  if islast then kmz_finish z else z.

(** kmz.py:168-183 (post_model_run). *)
Definition kmz_post (z : kmz) : kmz := if z_done z then z else kmz_finish z.

(** The steps of a run, as [run_from]; [None] is a step in which something fails. *)
Fixpoint kmz_steps (T : option Z) (dt mstart n k : Z) (evs : list (option (bool * list (bool * list elem)))) (z : kmz) : kmz :=
  match evs with
  | [] => if k =? n then kmz_post z else z
  | None :: _ => if k =? 0 then z else kmz_post z
  | Some (flag, scs) :: r =>
      kmz_steps T dt mstart n (k + 1) r (kmz_write T dt (k =? n - 1) flag (mstart + k * dt * sec_us) scs z)
  end.
Definition kmz_run T dt mstart n evs z := kmz_steps T dt mstart n 0 evs (kmz_prepare z).
End Kmz.
