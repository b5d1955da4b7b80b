(** * Operations that work on a view of the container without writing it back

    Models gnome/weatherers/roc.py (Response._remove_mass_simple,
    _remove_mass_indices, and the part of weather_elements of the response
    options Burn, Skim and Disperse that takes oil out of the elements) and
    gnome/ops/density.py (init_density, recalc_density), on the containers and
    views of ScModel.v.

    Floats are rationals without rounding; the amounts that a response option
    plans to collect are parameters (RocModel.v has the plans).  Not modelled:
    the logging, the units, and aggregate (called again afterwards). *)
From Verif Require Import Py QLemmas ScModel.
Open Scope Z_scope.

(** More names of arrays. *)
Definition n_comps : Z := 5.         (* mass_components *)
Definition n_density : Z := 6.
Definition n_oil_density : Z := 7.
Definition n_fw : Z := 8.            (* frac_water *)
Definition n_init : Z := 9.          (* init_mass *)

(** basic_types.py:88-100 *)
Definition f_surf : Z := 2.          (* surface_weather *)
Definition f_disp : Z := 32.         (* disperse *)

(** weatherers/core.py:46-49 and roc.py:1704-1706: the arrays that the response
    options Burn and Skim ask for. *)
Definition burn_arrays : list Z := [n_comps; n_fate; n_mass; n_init; n_density; n_fw].
Definition skim_arrays : list Z := [n_comps; n_fate; n_mass; n_init].

(** [data[name]], where data is what itersubstancedata returned. *)
Definition read (c : sc) (f name : Z) : res (list val) :=
  match get_view c f with
  | VEmpty => Raise KeyErr
  | VAlias => match dget name (c_data c) with Some l => Ok l | None => Raise KeyErr end
  | VCopy v => match dget name v with Some l => Ok l | None => Raise KeyErr end
  end.

Definition number (v : val) : res Q := match v with VQ [q] => Ok q | _ => Raise TypeErr end.
Definition vector (v : val) : res (list Q) := match v with VQ l => Ok l | _ => Raise TypeErr end.

Definition Qmin_py (a b : Q) : Q := if Qle_bool a b then a else b.

(** roc.py:159-166 (_remove_mass_simple).  The total is positive: only elements
    with mass are in a view. *)
Definition remove_simple (ms : list Q) (cs : list (list Q)) (amount : Q) : list Q * list (list Q) * Q :=
  let total := qsum ms in
  let frac := Qmin_py (amount / total) 1 in
  let cs' := map (map (fun x => x * (1 - frac))%Q) cs in
  let ms' := map qsum cs' in
  (ms', cs', (total - qsum ms')%Q).

(** roc.py:1998-2018 and 2424-2436: the data are taken, mass is removed from
    them, the difference is booked; update_from_fatedataview is not called.
    The first result is the container, the second the booked mass. *)
Definition roc_take (c : sc) (names : list Z) (amount : Q) : sc * res Q :=
  match get_data c names f_surf with
  | (c1, Some e) => (c1, Raise e)
  | (c1, None) =>
      match (do lm <- read c1 f_surf n_mass; mapM number lm) with
      | Raise e => (c1, Raise e)
      | Ok [] => (c1, Ok 0%Q)
      | Ok ms =>
          match (do lc <- read c1 f_surf n_comps; mapM vector lc) with
          | Raise e => (c1, Raise e)
          | Ok cs =>
              let '(ms', cs', actual) := remove_simple ms cs amount in
              match modify_all c1 f_surf [(n_comps, map VQ cs'); (n_mass, map (fun m => VQ [m]) ms')] with
              | (c2, None) => (c2, Ok actual)
              | (c2, Some e) => (c2, Raise e)
              end
          end
      end
  end.

(** ops/density.py:109-129 and 86-104 for one element; [kd] is what
    _get_k_rho_weathering_dens_update returns. *)
Definition k_rho (rho0 : Q) (cds mfs : list Q) : Q := (rho0 / qsum (map (fun '(a, b) => a * b)%Q (combine cds mfs)))%Q.
Definition oil_rho (kd : Q) (cds : list Q) (m : Q) (mc : list Q) : Q :=
  (kd * qsum (map (fun '(d, x) => d * (x / m))%Q (combine cds mc)))%Q.
Definition new_rho (water oil fw : Q) : Q :=
  let r := (fw * water + (1 - fw) * oil)%Q in
  if Qle_bool r water then r else water.

(** [data[name] = l] on a dictionary of arrays. *)
Definition assign (c : sc) (f name : Z) (l : list val) : sc :=
  match get_view c f with
  | VEmpty => c
  | VAlias => put_data c (dset name l (c_data c))
  | VCopy v => put_view c (dset f (VCopy (dset name l v)) (c_view c))
  end.

Fixpoint zip3 (ms : list Q) (cs : list (list Q)) (ws : list Q) : list (Q * list Q * Q) :=
  match ms, cs, ws with
  | m :: a, x :: b, w :: d => (m, x, w) :: zip3 a b d
  | _, _, _ => []
  end.

(** ops/density.py:49-111 (recalc_density) for a weatherable substance (another
    one is left alone), up to the aggregation. *)
Definition recalc_density (c : sc) (weatherable : bool) (rho0 : Q) (cds mfs : list Q) (water : Q) : sc * option exc :=
  let body :=
    if negb weatherable then (c, None) else
    match get_data c (map fst (c_types c)) f_surf with
    | (c1, Some e) => (c1, Some e)
    | (c1, None) =>
        match (do lm <- read c1 f_surf n_mass; do ms <- mapM number lm;
               do lc <- read c1 f_surf n_comps; do cs <- mapM vector lc;
               do lw <- read c1 f_surf n_fw; do ws <- mapM number lw; Ok (zip3 ms cs ws)) with
        | Raise e => (c1, Some e)
        | Ok [] => (c1, None)
        | Ok rows =>
            let oils := map (fun '(m, mc, fw) => oil_rho (k_rho rho0 cds mfs) cds m mc) rows in
            let news := map (fun '(m, mc, fw) => new_rho water (oil_rho (k_rho rho0 cds mfs) cds m mc) fw) rows in
            let c2 := assign c1 f_surf n_density (map (fun q => VQ [q]) news) in
            (assign c2 f_surf n_oil_density (map (fun q => VQ [q]) oils), None)
        end
    end in
  match body with
  | (c1, None) => update_sc c1 0
  | (c1, Some e) => (c1, Some e)
  end.

(** What the code would have to say: the same fate at both ends. *)
Definition update_after (c : sc) : sc * option exc := update_sc c f_surf.

(** roc.py:168-181, 1596-1631: the response option Disperse, which writes into
    the container itself.  [pick] are the elements that can be dispersed, with
    the mass to remove of each; the result is (masses, components, fates) and
    what was removed from each.  np.isclose(m, 0) is |m| <= 1e-8. *)
Definition clip01 (q : Q) : Q := if Qle_bool q 0 then 0%Q else if Qle_bool 1 q then 1%Q else q.

Record drow := mkD { d_mass : Q; d_comps : list Q; d_fate : Z }.

Definition disperse_row (r : drow) (want : option Q) : drow * Q :=
  match want with
  | None => (r, 0%Q)
  | Some a =>
      let frac := clip01 (a / d_mass r) in
      let cs := map (fun x => (1 - frac) * x)%Q (d_comps r) in
      let m := qsum cs in
      (mkD m cs (if Qle_bool (Qabs m) (1 # 100000000) then f_disp else d_fate r), (qsum (d_comps r) - m)%Q)
  end.

Definition disperse (rows : list (drow * option Q)) : list drow * list Q :=
  (map (fun '(r, w) => fst (disperse_row r w)) rows, map (fun '(r, w) => snd (disperse_row r w)) rows).

(** roc.py:1605-1627: what is booked. *)
Record dbooks := mkB { b_disp : Q; b_sys : Q; b_float : Q }.
Definition disperse_books (b : dbooks) (removed : list Q) : dbooks :=
  mkB (b_disp b + qsum removed) (b_sys b + qsum removed) (b_float b - qsum removed).
