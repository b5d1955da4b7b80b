(** * Model of the land check

    Source: /repo/py_gnome/gnome/cy_gnome/cy_land_check.pyx and
    /repo/py_gnome/gnome/maps/map.py.
    int32_t arithmetic is modelled with wrap-around at 32 bits. *)
From Verif Require Import Py.

(** The int32_t value of an exact result (two's complement wrap-around; signed
    overflow is undefined in C, the build uses -fwrapv semantics). *)
Definition i32 (z : Z) : Z := (z + 2147483648) mod 4294967296 - 2147483648.

(** A raster: its shape and the cells in C order, one flat buffer. *)
Record raster := mkRaster { rw : Z; rh : Z; cells : list Z }.

(** [dataptr[i]]: a read at a flat offset, [None] if it is outside the buffer. *)
Definition rd (g : raster) (i : Z) : option Z :=
  if i <? 0 then None else nth_error (cells g) (Z.to_nat i).

(** The offset expression [x * n + y] in int32_t. *)
Definition at32 (n x y : Z) : Z := i32 (i32 (x * n) + y).

(** cy_land_check.pyx:38-62, c_overlap_grid. *)
Definition overlap_grid (m n x1 y1 x2 y2 : Z) : bool :=
  if (x1 <? 0) && (x2 <? 0) then false
  else if (y1 <? 0) && (y2 <? 0) then false
  else if (x1 >=? m) && (x2 >=? m) then false
  else if (y1 >=? n) && (y2 >=? n) then false
  else true.

(** Outcome of the walk: no land, (previous pixel, hit pixel), a read outside
    the buffer, or out of fuel (neither of the last two happens: C32, C30). *)
Inductive walk_result :=
| NoHit
| Hit (px py hx hy : Z)
| BadRead
| OutOfFuel.

(** cy_land_check.pyx:110,137: "is the point off the grid?" *)
Definition off_grid (m n x y : Z) : bool :=
  (x <? 0) || (x >=? m) || (y <? 0) || (y >=? n).

(** cy_land_check.pyx:122-170, the [while True] loop.  [dx dy sx sy] are fixed;
    [err], the current pixel and [was_on_grid] change. *)
Fixpoint walk (fuel : nat) (g : raster) (dx dy sx sy x1 y1 : Z)
         (err x0 y0 : Z) (was_on_grid : bool) : walk_result :=
  match fuel with
  | O => OutOfFuel
  | S fuel' =>
    if (x0 =? x1) && (y0 =? y1) then NoHit                    (* 123-124, 170 *)
    else
      let px := x0 in let py := y0 in                         (* 125-126 *)
      let e2 := i32 (2 * err) in                              (* 128 *)
      let mx := e2 >? i32 (- dy) in
      let my := e2 <? dx in
      let err1 := if mx then i32 (err - dy) else err in       (* 129-131 *)
      let x := if mx then i32 (x0 + sx) else x0 in
      let err2 := if my then i32 (err1 + dx) else err1 in     (* 132-134 *)
      let y := if my then i32 (y0 + sy) else y0 in
      if off_grid (rw g) (rh g) x y then                      (* 137 *)
        if was_on_grid then NoHit                             (* 141-142 *)
        else walk fuel' g dx dy sx sy x1 y1 err2 x y was_on_grid
      else
        match rd g (at32 (rh g) x y) with                     (* 147 *)
        | None => BadRead
        | Some c =>
          if negb (c =? 0) then Hit px py x y                 (* 148-150 *)
          else if was_on_grid && mx && my then                (* 154 *)
            match rd g (at32 (rh g) x (i32 (y - sy))) with    (* 160 *)
            | None => BadRead
            | Some c1 =>
              if negb (c1 =? 0) then
                match rd g (at32 (rh g) (i32 (x - sx)) y) with (* 161 *)
                | None => BadRead
                | Some c2 =>
                  if negb (c2 =? 0) then Hit px py x (i32 (y - sy)) (* 163-166 *)
                  else walk fuel' g dx dy sx sy x1 y1 err2 x y true
                end
              else walk fuel' g dx dy sx sy x1 y1 err2 x y true
            end
          else walk fuel' g dx dy sx sy x1 y1 err2 x y true   (* 167 *)
        end
  end.

(** cy_land_check.pyx:65-170, c_find_first_pixel. *)
Definition find_first_pixel (g : raster) (x0 y0 x1 y1 : Z) : walk_result :=
  if negb (overlap_grid (rw g) (rh g) x0 y0 x1 y1) then NoHit
  else
    let dx := i32 (Z.abs (i32 (x1 - x0))) in
    let dy := i32 (Z.abs (i32 (y1 - y0))) in
    let sx := if x0 <? x1 then 1 else -1 in
    let sy := if y0 <? y1 then 1 else -1 in
    let err := i32 (dx - dy) in
    let fuel := S (Z.to_nat (Z.max dx dy)) in
    if negb (off_grid (rw g) (rh g) x0 y0) then
      match rd g (at32 (rh g) x0 y0) with
      | None => BadRead
      | Some c => if negb (c =? 0) then Hit x0 y0 x0 y0
                  else walk fuel g dx dy sx sy x1 y1 err x0 y0 true
      end
    else walk fuel g dx dy sx sy x1 y1 err x0 y0 false.

(** One element: pixel position, pixel end position, beached?, pixel of the
    last water position. *)
Record le := mkLE { pos : Z * Z; endp : Z * Z; onland : bool; lastw : Z * Z }.

(** What a walk result does to an element; both loops below share these
    assignments (cy_land_check.pyx:275-284 and 354-374). *)
Definition settle (e : le) (r : walk_result) : option le :=
  match r with
  | Hit px py hx hy => Some (mkLE (pos e) (hx, hy) true (px, py))
  | NoHit => Some (mkLE (endp e) (endp e) (onland e) (lastw e))
  | BadRead | OutOfFuel => None
  end.

(** cy_land_check.pyx:259-284, the loop body of check_land.  Only the status
    ONLAND is tested and set, so the status code is a boolean here. *)
Definition check_land1 (g : raster) (e : le) : option le :=
  if onland e then Some e
  else settle e (find_first_pixel g (fst (pos e)) (snd (pos e)) (fst (endp e)) (snd (endp e))).

(** cy_land_check.pyx:333-374, the [while True] of check_land_layers: layers
    with their ratios, coarsest first.  C's [div] truncates towards zero. *)
Fixpoint layered_walk (layers : list (raster * Z)) (x0 y0 x1 y1 : Z) : walk_result :=
  match layers with
  | [] => NoHit                       (* the code requires at least one layer *)
  | (g, ratio) :: rest =>
      match find_first_pixel g (Z.quot x0 ratio) (Z.quot y0 ratio)
                               (Z.quot x1 ratio) (Z.quot y1 ratio) with
      | Hit px py hx hy =>
          match rest with
          | [] => Hit px py hx hy
          | _ :: _ => layered_walk rest x0 y0 x1 y1
          end
      | r => r
      end
  end.

(** cy_land_check.pyx:328-374, the loop body of check_land_layers. *)
Definition check_land_layers1 (layers : list (raster * Z)) (e : le) : option le :=
  if onland e then Some e
  else settle e (layered_walk layers (fst (pos e)) (snd (pos e)) (fst (endp e)) (snd (endp e))).

(** [raster[x, y]] read of a block cell inside the raster. *)
Definition cell (g : raster) (x y : Z) : Z :=
  match rd g (x * rh g + y) with Some c => c | None => 0 end.

(** [range(a, min(b, n))] as the integers a numpy slice a:b of an axis of
    length n covers (0 <= a). *)
Definition slice_range (a b n : Z) : list Z :=
  zseq a (Z.to_nat (Z.min b n - a)).

(** maps/map.py:861-864: [np.any(raster[i*ratio:(i+1)*ratio, j*ratio:(j+1)*ratio])]. *)
Definition any_land (g : raster) (ratio i j : Z) : bool :=
  existsb (fun x => existsb (fun y => negb (cell g x y =? 0))
                            (slice_range (j * ratio) ((j + 1) * ratio) (rh g)))
          (slice_range (i * ratio) ((i + 1) * ratio) (rw g)).

Definition ceil_div (a b : Z) : Z := - ((- a) / b).

(** maps/map.py:855-866: one coarser raster. *)
Definition coarse (g : raster) (ratio : Z) : raster :=
  let w := ceil_div (rw g) ratio in
  let h := ceil_div (rh g) ratio in
  mkRaster w h
    (flat_map (fun i => map (fun j => if any_land g ratio i j then 1 else 0)
                            (zseq 0 (Z.to_nat h)))
              (zseq 0 (Z.to_nat w))).

(** maps/map.py:849-868, build_coarser_rasters with the default two ratios
    (16, 1) generalised to any list of coarser ratios followed by 1. *)
Definition build_layers (g : raster) (ratios : list Z) : list (raster * Z) :=
  map (fun r => (coarse g r, r)) ratios ++ [(g, 1)].
