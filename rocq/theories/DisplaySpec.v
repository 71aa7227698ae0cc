(** What a drawing of a map should show. *)
From Coq Require Import Sorted Reals.
From Flocq Require Import Core.Core IEEE754.Binary IEEE754.Bits.
From Verif Require Import Base Floats Grid DistSpec SdfSpec CollisionMap SurfaceSpec TaggedMap TaggedSpec Display ResampleSpec.
Local Open Scope Z_scope.

(** [l] holds exactly the cells of the grid with property [P], each once, in the
    order of the loops. *)
Definition exactly (d : dims) (P : idx -> Prop) (l : list idx) : Prop :=
  StronglySorted visited_before l /\ forall i, In i l <-> in_bounds d i = true /\ P i.

(** The marker has one point and one colour for each of these cells. *)
Definition draws {point} (center : idx -> point) (k : marker point) (d : dims) (P : idx -> Prop)
    (col : idx -> color) : Prop :=
  exists l, exactly d P l /\ mk_points k = map center l /\ mk_colors k = map col l.

(** A colour is drawn when its alpha is positive. *)
Definition drawn (c : color) : Prop := gt32 (c_a c) zero32 = true.

(** The colour of a cell by occupancy. *)
Definition class_color (collision free unknown : color) (occ : binary32) : color :=
  if gt32 occ half32 then collision else if lt32 occ half32 then free else unknown.

(** A cell of a collision map is on a surface when it touches a cell of another class. *)
Definition on_surface (m : cmap) (i : idx) : Prop :=
  exists j, touches i j /\ in_bounds (cm_dims m) j = true /\
    kind_of (c_occ (fst (cm_get m j))) <> kind_of (c_occ (fst (cm_get m i))).

(** The marker shows the cells of one class, and of those the ones that meet [extra],
    in one colour; nothing when that colour is not drawn. *)
Definition shows {point} (center : idx -> point) (k : marker point) (m : cmap) (n : namespace) (want : kind)
    (extra : idx -> Prop) (c : color) : Prop :=
  mk_frame k = cm_frame m /\ mk_ns k = n /\
  draws center k (cm_dims m) (fun i => extra i /\ kind_of (c_occ (fst (cm_get m i))) = want /\ drawn c) (fun _ => c).

(** The colour of an object: the given one, or a generated one. *)
Definition given_or_generated (unique_color : Z -> binary32 -> color) (colors : list (Z * color))
    (id : Z) (c : color) : Prop :=
  In (id, c) colors \/ (~ In id (map fst colors) /\ c = unique_color id one32).

(** One marker for each object with [wanted id] that has a cell with property [P],
    showing exactly those cells in the object's colour; no other markers. *)
Definition one_marker_each {point} (center : idx -> point) (d : dims) (frame : string)
    (object : idx -> Z) (wanted : Z -> Prop) (P : idx -> Prop) (col : Z -> color)
    (ks : list (marker point)) : Prop :=
  NoDup (map (fun k => mk_ns k) ks) /\
  forall k, In k ks <-> exists id l, wanted id /\ l <> [] /\
    exactly d (fun i => object i = id /\ P i) l /\
    k = Marker frame (object_ns id) (map center l) (map (fun _ => col id) l).

(** A cell of the grid at most one step away along every axis. *)
Definition near_cell (i j : idx) : Prop :=
  Z.abs (ix i - ix j) <= 1 /\ Z.abs (iy i - iy j) <= 1 /\ Z.abs (iz i - iz j) <= 1.

(** The cell is filled (unknown counts as filled) and some cell of the grid at most
    one step away is free or belongs to another object. *)
Definition contour_cell (m : tmap) (i : idx) : Prop :=
  counts_as_filled true (tocc m i) /\
  exists j, in_bounds (tm_dims m) j = true /\ near_cell i j /\
    ~ (tobj m j = tobj m i /\ counts_as_filled true (tocc m j)).

(** A resolution whose distances stay in the normal range of float. *)
Definition plain_resolution (r : binary64) : Prop :=
  is_finite 53 1024 r = true /\ (bpow radix2 (-125) <= B2R 53 1024 r <= bpow radix2 126)%R.

(** The objects asked for: those in the list, or all but object 0 if it is empty. *)
Definition selected (objects : list Z) (id : Z) : Prop :=
  In id objects \/ (objects = [] /\ id <> 0).

(** The geometry the contour drawings need: one plain resolution, no int32 overflow. *)
Definition drawable (m : tmap) (g : geometry) : Prop :=
  tmap_ok m /\ size_ok (enlarged_dims (tm_dims m)) /\ plain_resolution (g_cx g) /\
  g_cy g = g_cx g /\ g_cz g = g_cx g.

(** ** Signed distance fields *)

(** A colour channel that is visible: between a tenth and one. *)
Definition bright (x : binary32) : Prop :=
  is_finite 24 128 x = true /\ (/ 10 < B2R 24 128 x <= 1)%R.

(** Green for positive values, red for negative ones, blue for the others. *)
Definition shaded (v : binary32) (c : color) : Prop :=
  (gt32 v zero32 = true -> c_r c = zero32 /\ c_b c = zero32 /\ bright (c_g c)) /\
  (lt32 v zero32 = true -> c_g c = zero32 /\ c_b c = zero32 /\ bright (c_r c)) /\
  (gt32 v zero32 = false -> lt32 v zero32 = false -> c = RGBA zero32 zero32 one32 (c_a c)).

(** The points of a marker with their colours. *)
Definition shown {point} (k : marker point) : list (point * color) := combine (mk_points k) (mk_colors k).
