(** C67, C68, C101 on maps of a single layer: the topology of flat objects. *)
From Verif Require Import Base Floats Grid TopoSpec SurfaceSpec CollisionMap ComponentSpec
  CollisionMapProofs TaggedMap TaggedSpec Surfaces TopologyThms PlanarSpec PlanarHoles PlanarMap.

(** ** C67: ComputeComponentTopology answers *)

(** Full statement: for every sound map.  Refuted in PropSurface for maps with a
    2 x 2 flat top; proved here for maps of one layer: the call answers with one
    entry per component (with [ignore_empty], per occupied component). *)
Theorem C67_single_layer_partial : forall o ignore_empty m,
  any_order o -> sound m -> nz (cm_dims m) = 1 ->
  exists m' n t,
    cm_update m = Ok (m', n) /\ cm_topology o ignore_empty true m = Ok (m', t) /\
    components_right m' n /\ ascending (map fst t) /\
    forall k, In k (map fst t) <->
      exists i, in_bounds (cm_dims m) i = true /\ component_at m' i = k /\
                (ignore_empty = true -> gt32 (occupancy_at m i) half32 = true).
Proof.
  exact (fun o e m P S T => match thin_map o e m P S T with
    | ex_intro _ m' (ex_intro _ n (ex_intro _ t (conj E (conj C (conj Et (conj A (conj K _))))))) =>
        ex_intro _ m' (ex_intro _ n (ex_intro _ t (conj E (conj Et (conj C (conj A K))))))
    end).
Qed.
Print Assumptions C67_single_layer_partial.

(** ** C68: voids are cavities *)

(** Full statement: for every sound map.  Refuted in PropSurface; proved here for
    maps of one layer, where no component has a cavity and none is reported. *)
Theorem C68_single_layer_partial : forall o ignore_empty m,
  any_order o -> sound m -> nz (cm_dims m) = 1 ->
  exists m' t, cm_topology o ignore_empty true m = Ok (m', t) /\
    forall k h v, In (k, (h, v)) t ->
      v = 0 /\ ~ has_cavity (cm_dims m) (component_at m') k.
Proof.
  exact (fun o e m P S T => match thin_map o e m P S T with
    | ex_intro _ m' (ex_intro _ n (ex_intro _ t (conj E (conj C (conj Et (conj A (conj _ K))))))) =>
        ex_intro _ m' (ex_intro _ t (conj Et (fun k h v H =>
          conj (proj1 (K k h v H)) (thin_no_cavity _ _ _ T))))
    end).
Qed.
Print Assumptions C68_single_layer_partial.

(** ** C101: the holes of a flat component are the regions it encloses *)

(** Full statement: for every sound map of one layer, the number of holes reported
    for a component is the number of separate regions of other cells that it cuts
    off from the outside.  Proved for components whose cells nowhere meet at a
    corner only. *)
Theorem C101_holes_counted_partial : forall o ignore_empty m,
  any_order o -> sound m -> nz (cm_dims m) = 1 ->
  exists m' n t,
    cm_update m = Ok (m', n) /\ cm_topology o ignore_empty true m = Ok (m', t) /\
    forall k h v, In (k, (h, v)) t ->
      (forall w, ~ contact (cm_dims m) (component_at m') k w) ->
      0 <= h /\ encloses beside (cm_dims m) (component_at m') k (Z.to_nat h).
Proof. exact thin_exact. Qed.
Print Assumptions C101_holes_counted_partial.

(** What is reported in general: with [q] places where cells meet at a corner only
    and [r] regions cut off, 1 + (4 (r - 1) - q) / 4, rounded towards zero. *)
Theorem C101_with_contacts : forall o ignore_empty m,
  any_order o -> sound m -> nz (cm_dims m) = 1 ->
  exists m' n t,
    cm_update m = Ok (m', n) /\ cm_topology o ignore_empty true m = Ok (m', t) /\
    forall k h v, In (k, (h, v)) t ->
      exists r q, encloses beside (cm_dims m) (component_at m') k r /\
        contacts (cm_dims m) (component_at m') k q /\
        h = 1 + Z.quot (4 * (Z.of_nat r - 1) - Z.of_nat q) 4.
Proof.
  exact (fun o e m P S T => match thin_map o e m P S T with
    | ex_intro _ m' (ex_intro _ n (ex_intro _ t (conj E (conj C (conj Et (conj A (conj _ K))))))) =>
        ex_intro _ m' (ex_intro _ n (ex_intro _ t (conj E (conj Et (fun k h v H => proj2 (K k h v H))))))
    end).
Qed.
Print Assumptions C101_with_contacts.

(** Refuted when cells meet at corners: a plate with three missing cells along a
    diagonal is reported with two holes.  They are three regions if cells are
    neighbours when they share a side, and one if sharing a corner is enough. *)
Theorem C101_diagonal_holes_refuted : exists m m' n,
  sound m /\ nz (cm_dims m) = 1 /\ cm_update m = Ok (m', n) /\
  encloses beside (cm_dims m) (component_at m') 1 3 /\
  encloses meets (cm_dims m) (component_at m') 1 1 /\
  forall o, any_order o -> answer (cm_topology o true true m) = Ok [(1, (2, 0))].
Proof.
  destruct diagonal_update as (n & E). exists diagonal_map, diagonal_labelled, n.
  exact (conj diagonal_sound (conj eq_refl (conj E (conj diagonal_three (conj diagonal_one diagonal_answer))))).
Qed.
Print Assumptions C101_diagonal_holes_refuted.

(** ** The hypotheses are met: a plate with two separate holes *)
Definition plate_labelled : cmap := match cm_update plate_map with Ok (m, _) => m | _ => plate_map end.
Example planar_nonvacuous :
  sound plate_map /\ nz (cm_dims plate_map) = 1 /\
  (forall o, any_order o -> answer (cm_topology o true true plate_map) = Ok [(1, (2, 0))]) /\
  answer (cm_topology (fun l => rev l) false true plate_map) = Ok [(1, (2, 0)); (2, (0, 0)); (3, (0, 0))] /\
  component_at plate_labelled (I 1 2 0) = 2 /\ component_at plate_labelled (I 3 2 0) = 3 /\
  (forall w, ~ contact (cm_dims plate_map) (component_at plate_labelled) 1 w).
Proof.
  split; [apply build_sound; vm_compute; congruence|]. split; [reflexivity|]. split; [exact plate_answer|].
  do 3 (split; [vm_compute; reflexivity|]).
  intros [x y] K.
  assert (B : forall i, belongs slab (component_at plate_labelled) 1 i <->
            in_bounds slab i = true /\ component_at plate_labelled i = 1) by (intros i; reflexivity).
  assert (L : forallb (fun i => Bool.eqb (component_at plate_labelled i =? 1)
            (negb ((iy i =? 2) && ((ix i =? 1) || (ix i =? 3))))) (sweep slab) = true) by (vm_compute; reflexivity).
  assert (C : forall a b, belongs slab (component_at plate_labelled) 1 (I a b 0) <->
            (0 <= a < 5 /\ 0 <= b < 5) /\ ~ (b = 2 /\ (a = 1 \/ a = 3))).
  { intros a b. rewrite B. rewrite forallb_forall in L. specialize (L (I a b 0)). rewrite GridFacts.sweep_in in L.
    rewrite GridFacts.in_bounds_spec in *. cbn [slab nx ny nz ix iy iz] in *. split.
    - intros (Q & E). specialize (L Q). rewrite E in L. apply Bool.eqb_prop in L. lia.
    - intros (Q & E). assert (Q' : 0 <= a < 5 /\ 0 <= b < 5 /\ 0 <= 0 < 1) by lia. split; auto. specialize (L Q').
      apply Bool.eqb_prop in L. lia. }
  unfold contact in K. change (cm_dims plate_map) with slab in K. rewrite !C in K. lia.
Qed.
