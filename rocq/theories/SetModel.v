(** * The start of a run: switches, references and checks

    Models gnome/model.py: find_by_attr (713-754), Model._attach_default_refs (764-794), the steps 1 and 4 of
    setup_model_run (797-883), compile_env (1272-1285), validate and _validate_env_coll (1821-1890),
    set_make_default_refs (1892-1900), add_env (2008-2022) and the beginning of step (1170-1179);
    gnome/gnomeobject.py: gather_ref_as (344-364), _attach_default_refs (366-391), validate_refs (393-416);
    Spill._attach_default_refs (spills/spill.py:484-487) and Substance._attach_default_refs (substance.py:225-229);
    and check_inputs (model.py:1640-1819).

    Objects are numbers; what they hold is a heap. Collections are the lists of the objects one gets by iterating
    over them (what OrderedCollection does is modelled in OrdCollModel, the sorting of the weatherers in OrderModel).
    Not modelled: the data arrays (step 3 of setup_model_run, in ScModel), prepare_for_model_run of the single
    classes, the text of the messages. *)
From Coq Require Import QArith.
From Verif Require Import Py OrderModel.
Open Scope Z_scope.

(** The names objects are referred to by. *)
Definition name := Z.
Definition wind : name := 1.
Definition water : name := 2.
Definition waves : name := 3.
Definition spreading : name := 4.
Definition langmuir : name := 5.

(** The class attribute _ref_as: absent, a string or a list of strings. *)
Inductive refas := NoRef | One (n : name) | Many (ns : list name).
(** gnomeobject.py:354-357. *)
Definition offered (r : refas) : list name := match r with NoRef => [] | One n => [n] | Many ns => ns end.

Record obj := Obj {
  o_ref : refas;                          (* _ref_as *)
  o_req : option (list name);             (* _req_refs (a list, or the keys of a dictionary) *)
  o_mdr : bool;                           (* make_default_refs *)
  o_attr : name -> option (option Z);     (* the attributes wind, water, ...: absent; None; an object *)
  o_on : option bool;                     (* on, if the object has it *)
  o_lax : bool;                           (* validate() is overridden to say valid (Wind, Waves: wind.py:746-757, waves.py:92-94) *)
  o_area : bool;                          (* array_types contains area *)
  o_cls : Z                               (* the class *)
}.
Definition heap := Z -> obj.
Definition upd (h : heap) (x : Z) (o : obj) : heap := fun y => if y =? x then o else h y.
Definition set_on (b : bool) (o : obj) : obj :=
  Obj (o_ref o) (o_req o) (o_mdr o) (o_attr o) (Some b) (o_lax o) (o_area o) (o_cls o).
Definition set_attr (n : name) (v : option Z) (o : obj) : obj :=
  Obj (o_ref o) (o_req o) (o_mdr o) (fun m => if m =? n then Some v else o_attr o m) (o_on o) (o_lax o) (o_area o) (o_cls o).
Definition set_mdr (b : bool) (o : obj) : obj :=
  Obj (o_ref o) (o_req o) b (o_attr o) (o_on o) (o_lax o) (o_area o) (o_cls o).

(** ** Step 1: spreading (model.py:816-853) *)
Definition is_one (n : name) (r : refas) : bool := match r with One m => m =? n | _ => false end.
Definition is_on (o : obj) : bool := match o_on o with Some b => b | None => false end.
(** model.py:820-834: the loop; weatherers always have the attribute on. *)
Record st1 := ST { s_heap : heap; s_area : bool; s_spread : option Z; s_lang : option Z }.
Definition look (s : st1) (x : Z) : st1 :=
  let o := s_heap s x in
  let a := s_area s || (is_on o && o_area o) in
  if is_one spreading (o_ref o) then ST (upd (s_heap s) x (set_on false o)) a (Some x) (s_lang s)
  else if is_one langmuir (o_ref o) then ST (upd (s_heap s) x (set_on false o)) a (s_spread s) (Some x)
  else ST (s_heap s) a (s_spread s) (s_lang s).
(** spreading.py:44-85 and 748-790: the new objects, without water and wind. *)
Definition no_attr (ns : list name) : name -> option (option Z) := fun m => if zmem m ns then Some None else None.
Definition fay : obj := Obj (One spreading) (Some [water]) true (no_attr [water]) (Some true) false true 13.
Definition lang : obj := Obj (One langmuir) (Some [water; wind]) true (no_attr [water; wind]) (Some true) false true 15.
(** model.py:839-853; [f] and [g] are the new objects, if they are made. *)
Definition turn_on (s : option Z) (new : Z) (o : obj) (h : heap) (ws : list Z) : heap * list Z :=
  match s with
  | None => (upd h new o, ws ++ [new])
  | Some x => (upd h x (set_on true (h x)), ws)
  end.
Definition switch (f g : Z) (h : heap) (ws : list Z) : heap * list Z :=
  let s := fold_left look ws (ST h false None None) in
  if s_area s then
    let (h1, ws1) := turn_on (s_spread s) f fay (s_heap s) ws in
    turn_on (s_lang s) g lang h1 ws1
  else (s_heap s, ws).

(** ** Step 4: references *)
Section Refs.
  (** == of two objects (gnomeobject.py:601). *)
  Variable eqv : Z -> Z -> bool.
  (** gnomeobject.py:358-364, for one name: [ob not in refs[n]] goes by identity, then by ==. *)
  Definition add_ref (x : Z) (d : dict (list Z)) (n : name) : dict (list Z) :=
    match dget n d with
    | Some l => if existsb (fun y => (y =? x) || eqv y x) l then d else dset n (l ++ [x]) d
    | None => dset n [x] d
    end.
  Definition gather1 (h : heap) (d : dict (list Z)) (x : Z) : dict (list Z) :=
    fold_left (add_ref x) (offered (o_ref (h x))) d.
  (** gnomeobject.py:344-364. *)
  Definition gather (h : heap) (src : list Z) (d : dict (list Z)) : dict (list Z) := fold_left (gather1 h) src d.

  (** gnomeobject.py:388-391. *)
  Fixpoint attach_names (d : dict (list Z)) (ns : list name) (o : obj) : res obj :=
    match ns with
    | [] => Ok o
    | n :: r =>
        do o' <- match dget n d with
                 | Some (y :: _) =>
                     match o_attr o n with
                     | None => Raise AttrErr
                     | Some None => Ok (set_attr n (Some y) o)
                     | Some (Some _) => Ok o
                     end
                 | _ => Ok o
                 end;
        attach_names d r o'
    end.
  (** gnomeobject.py:366-391. *)
  Definition attach1 (d : dict (list Z)) (h : heap) (x : Z) : res heap :=
    match o_req (h x) with
    | Some ns => if o_mdr (h x) then do o <- attach_names d ns (h x); Ok (upd h x o) else Ok h
    | None => Ok h
    end.
  (** An object with the objects it passes the references on to, which come first: a spill with its release and
      its substance (spill.py:484-487), a substance with its initializers (substance.py:225-229). *)
  Inductive tree := Node (x : Z) (kids : list tree).
  Fixpoint members (t : tree) : list Z := match t with Node x kids => flat_map members kids ++ [x] end.
  Fixpoint attach_all (d : dict (list Z)) (l : list Z) (h : heap) : res heap :=
    match l with
    | [] => Ok h
    | x :: r => do h' <- attach1 d h x; attach_all d r h'
    end.

  Record model := Mod {
    m_env : list Z; m_map : Z; m_movers : list Z; m_weath : list Z; m_outs : list Z; m_spills : list tree }.
  (** model.py:778-794. (The model itself has no _req_refs, 773.) *)
  Definition sources (m : model) : list Z := m_env m ++ [m_map m] ++ m_movers m ++ m_weath m ++ m_outs m.
  Definition takers (m : model) : list Z :=
    m_env m ++ m_weath m ++ m_movers m ++ m_outs m ++ flat_map members (m_spills m).
  Definition attach (m : model) (h : heap) : res heap :=
    let d := gather h (m_outs m) (gather h (m_weath m) (gather h (m_movers m)
             (gather h [m_map m] (gather h (m_env m) [])))) in
    attach_all d (takers m) h.
  (** model.py:1892-1900. *)
  Definition set_make_default_refs (b : bool) (m : model) (h : heap) : heap :=
    fold_left (fun h x => upd h x (set_mdr b (h x))) (m_weath m ++ m_movers m ++ m_env m) h.
End Refs.

(** ** Finding things *)
(** model.py:735-754, for the attribute _ref_as and one item wanted; an object without it is passed over. *)
Fixpoint find_ref (h : heap) (n : name) (l : list Z) : option Z :=
  match l with
  | [] => None
  | x :: r =>
      match o_ref (h x) with
      | NoRef => find_ref h n r
      | One m => if m =? n then Some x else find_ref h n r
      | Many ns => if existsb (Z.eqb n) ns then Some x else find_ref h n r
      end
  end.
(** model.py:735-754 with allitems=True. *)
Definition find_refs (h : heap) (n : name) (l : list Z) : option (list Z) :=
  match filter (fun x => match o_ref (h x) with
                         | NoRef => false | One m => m =? n | Many ns => existsb (Z.eqb n) ns end) l with
  | [] => None
  | items => Some items
  end.
(** model.py:1279-1285. *)
Definition compile_env (h : heap) (m : model) : option Z := find_ref h water (m_env m).

(** OrderedCollection.add and item assignment by index, for a collection without holes (OrdCollModel). *)
Definition oc_add (x : Z) (l : list Z) : list Z := if zmem x l then l else l ++ [x].
Fixpoint replace_class (h : heap) (x : Z) (l : list Z) : option (list Z) :=
  match l with
  | [] => None
  | y :: r => if o_cls (h y) =? o_cls (h x) then Some (x :: r) else option_map (cons y) (replace_class h x r)
  end.
(** model.py:2008-2020; the items put in are not in the environment yet. *)
Fixpoint add_env (h : heap) (quash : bool) (items env : list Z) : list Z * bool :=
  match items with
  | [] => (env, false)
  | x :: r =>
      if quash then (match replace_class h x env with Some e => e | None => oc_add x env end, true)
      else add_env h quash r (oc_add x env)
  end.

(** ** Checks *)
Definition std : list name := [wind; water; waves].
(** gnomeobject.py:402-416: the names missing, and whether the object is valid. *)
Definition validate_refs (o : obj) : list name * bool :=
  let miss := filter (fun n => match o_attr o n with Some None => true | _ => false end) std in
  (miss, match miss with [] => true | _ => o_mdr o end).
Definition validate1 (o : obj) : bool := if o_lax o then true else snd (validate_refs o).
Definition has_attr (o : obj) (n : name) : bool := match o_attr o n with Some _ => true | None => false end.
(** model.py:1837-1838. *)
Definition skipped (o : obj) : bool := match o_on o with Some false => true | _ => false end.
(** model.py:1845-1852. *)
Definition required (o : obj) : list name := if o_mdr o then filter (has_attr o) std else [].
(** model.py:1821-1866 and 1868-1890. *)
Definition validate (h : heap) (m : model) : bool :=
  let items := filter (fun x => negb (skipped (h x))) (m_movers m ++ m_weath m ++ m_env m ++ m_outs m) in
  let ok := forallb (fun x => validate1 (h x)) items in
  let env_req := flat_map (fun x => required (h x)) items in
  ok && forallb (fun n => match find_ref h n (m_env m) with Some _ => true | None => false end) env_req.

(** model.py:1170-1176, as far as references go: steps 1 and 4 of the set-up, then validate. The sorting of
    the weatherers (step 2) changes only the order in which they get their references. *)
Definition begin_run (eqv : Z -> Z -> bool) (f g : Z) (m : model) (h : heap) : res (model * heap * bool) :=
  let (h1, ws) := switch f g h (m_weath m) in
  let m1 := Mod (m_env m) (m_map m) (m_movers m) ws (m_outs m) (m_spills m) in
  do h2 <- attach eqv m1 h1;
  Ok (m1, h2, validate h2 m1).

(** ** check_inputs (model.py:1640-1819) *)
(** What it looks at in a spill; the answers of the map and of the oil are given. *)
Record spill := Spill {
  p_on : bool;
  p_depth_ok : bool;                    (* start_position[2] >= 0 *)
  p_start_on_map : bool; p_start_on_land : bool;
  p_end : option (bool * bool);         (* end_position, if it differs from start_position: on the map, on land *)
  p_release : Z; p_end_release : Z;
  p_weatherable : bool;
  p_sinks : option (bool * bool)        (* with water on the substance: below the pour point; water lighter than the oil *)
}.
Inductive msg :=
| NoSpills | Above | OffMap | OnLand | After | Before | TooCold | NoneReleased | NoOverlap.
Record cin := Cin {
  c_start : Z; c_duration : Z; c_time_step : Z; c_backwards : bool;
  c_weathering : bool;                  (* has_weathering: some weatherer is on *)
  c_movers : list (bool * bool)         (* on; the bounds meet those of the map *)
}.
(** model.py:1670-1702. *)
Definition place_msgs (p : spill) : list msg :=
  (if p_depth_ok p then [] else [Above]) ++
  (if p_start_on_map p then match p_end p with Some (false, _) => [OffMap] | _ => [] end else [OffMap]) ++
  (if p_start_on_land p then [OnLand] else match p_end p with Some (_, true) => [OnLand] | _ => [] end).
(** model.py:1706-1712. *)
Definition meets_run (c : cin) (p : spill) : bool :=
  if c_backwards c then c_start c + c_duration c <? p_release p
  else p_release p <? c_start c + c_duration c.
(** model.py:1714-1731: the message and whether the run stays valid. *)
Definition time_msgs (c : cin) (p : spill) : list msg * bool :=
  let fwd := 0 <? c_time_step c in
  let bwd := c_time_step c <? 0 in
  if ((c_start c <? p_release p) && fwd) || ((p_release p <? c_start c) && bwd) then ([After], true)
  else if ((p_release p <? c_start c) && fwd) || ((c_start c <? p_release p) && bwd) then ([Before], false)
  else ([], true).
(** model.py:1656-1765: one spill that is on; messages, validity. *)
Definition check_spill (c : cin) (p : spill) : res (list msg * bool) :=
  let (tm, ok) := time_msgs c p in
  if negb (p_release p =? p_end_release p) && (c_time_step c <? 0) then Raise RuntimeErr
  else
    if p_weatherable p then
      match p_sinks p with
      | None => Ok (place_msgs p ++ tm, ok)
      | Some (cold, sinks) =>
          if sinks then Raise RuntimeErr
          else Ok (place_msgs p ++ tm ++ (if cold then [TooCold] else []), ok)
      end
    else Ok (place_msgs p ++ tm, ok).
Fixpoint check_spills (c : cin) (l : list spill) : res (list msg * bool) :=
  match l with
  | [] => Ok ([], true)
  | p :: r =>
      if p_on p then
        do a <- check_spill c p;
        do b <- check_spills c r;
        Ok (fst a ++ fst b, snd a && snd b)
      else check_spills c r
  end.
(** model.py:1640-1819; [v] is what validate returned. *)
Definition check_inputs (c : cin) (v : bool) (ps : list spill) : res (list msg * bool) :=
  let m0 := match ps with [] => [NoSpills] | _ => [] end in
  do a <- check_spills c ps;
  let on := filter p_on ps in
  let m2 := match on with
            | [] => []
            | _ => if existsb (meets_run c) on then [] else [NoneReleased] end in
  let m3 := flat_map (fun mv => if fst mv && negb (snd mv) then [NoOverlap] else []) (c_movers c) in
  if c_time_step c <? 0 then
    if 0 <? c_duration c then Raise RuntimeErr
    else if c_weathering c && existsb p_weatherable on then Raise RuntimeErr
    else Ok (m0 ++ fst a ++ m2 ++ m3, v && snd a)
  else Ok (m0 ++ fst a ++ m2 ++ m3, v && snd a).
