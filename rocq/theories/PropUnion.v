(** C121: the fields of single objects and the field of all of them. *)
From Coq Require Import Reals.
From Flocq Require Import IEEE754.Binary.
From Verif Require Import Base Floats Grid DistSpec SdfGen SdfSpec SdfThms TaggedMap TaggedSpec TaggedUnion.
Open Scope Z_scope.

(** C121: the field of several objects is negative exactly where the field of one of
    them is, with a virtual border or without. *)
Theorem C121_sign : forall g m oob unknown ids,
  tmap_ok m -> size_ok (enlarged_dims (tm_dims m)) -> usable_resolution (g_cx g) ->
  g_cy g = g_cx g -> g_cz g = g_cx g -> ids <> [] -> forall border s x l c,
  tm_extract_sdf g m oob ids unknown border = Ok (s, x) -> tm_make_object_sdfs g m ids unknown border = Ok l ->
  in_bounds (tm_dims m) c = true ->
  (lt32 (fst (sdf_get s c)) zero32 = true <->
   exists id t, In (id, t) l /\ lt32 (fst (sdf_get t c)) zero32 = true).
Proof. exact union_sign. Qed.
Print Assumptions C121_sign.

(** C121: in cells outside all objects and near one, it is the smallest of their values. *)
Theorem C121_near : forall g m oob unknown ids,
  tmap_ok m -> size_ok (enlarged_dims (tm_dims m)) -> usable_resolution (g_cx g) ->
  g_cy g = g_cx g -> g_cz g = g_cx g -> ids <> [] -> forall s x l c,
  tm_extract_sdf g m oob ids unknown false = Ok (s, x) -> tm_make_object_sdfs g m ids unknown false = Ok l ->
  in_bounds (tm_dims m) c = true -> forall P v,
  (forall i, P i = true <-> object_filled m ids unknown i) ->
  ~ object_filled m ids unknown c -> nearest_other (tm_dims m) P c v -> v <= 6 ->
  (forall id t, In (id, t) l -> le32 (fst (sdf_get s c)) (fst (sdf_get t c)) = true) /\
  exists id t, In (id, t) l /\ sdf_get t c = sdf_get s c.
Proof. exact union_near. Qed.
Print Assumptions C121_near.

(** C121: a cell in an object, near that object's edge, is at least as deep in the
    union as in the object. *)
Theorem C121_inside : forall g m oob unknown ids,
  tmap_ok m -> size_ok (enlarged_dims (tm_dims m)) -> usable_resolution (g_cx g) ->
  g_cy g = g_cx g -> g_cz g = g_cx g -> ids <> [] -> forall s x l c,
  tm_extract_sdf g m oob ids unknown false = Ok (s, x) -> tm_make_object_sdfs g m ids unknown false = Ok l ->
  in_bounds (tm_dims m) c = true -> forall P v id t,
  (forall i, P i = true <-> object_filled m [id] unknown i) ->
  In (id, t) l -> object_filled m [id] unknown c -> nearest_other (tm_dims m) P c v -> v <= 6 ->
  le32 (fst (sdf_get s c)) (fst (sdf_get t c)) = true.
Proof. exact union_inside. Qed.
Print Assumptions C121_inside.

(** C121: on planar maps, cells outside all objects: within a factor sqrt 2 (2 in
    squared cells) of the smallest. *)
Theorem C121_planar : forall g m oob unknown ids,
  tmap_ok m -> size_ok (enlarged_dims (tm_dims m)) -> usable_resolution (g_cx g) ->
  g_cy g = g_cx g -> g_cz g = g_cx g -> ids <> [] -> forall s x l c,
  tm_extract_sdf g m oob ids unknown false = Ok (s, x) -> tm_make_object_sdfs g m ids unknown false = Ok l ->
  in_bounds (tm_dims m) c = true -> flat (tm_dims m) -> ~ object_filled m ids unknown c ->
  exists o, sdf_get s c = (signed_value false o (g_cx g), true) /\
    (forall id t, In (id, t) l -> exists k, sdf_get t c = (signed_value false k (g_cx g), true) /\
       forall z, k = Some z -> exists n, o = Some n /\ n <= 2 * z) /\
    (forall n, o = Some n -> exists id t z, In (id, t) l /\
       sdf_get t c = (signed_value false (Some z) (g_cx g), true) /\ z <= 2 * n).
Proof. exact union_planar. Qed.
Print Assumptions C121_planar.

(** The full claim (everywhere the smallest value outside the objects) is false of the
    code: adding an object can raise the value of a cell. *)
Theorem C121_smallest_refuted : exists g m ids s x l c id t,
  tmap_ok m /\ size_ok (enlarged_dims (tm_dims m)) /\ flat (tm_dims m) /\ usable_resolution (g_cx g) /\
  g_cy g = g_cx g /\ g_cz g = g_cx g /\ ids <> [] /\
  tm_extract_sdf g m inf32 ids false false = Ok (s, x) /\ tm_make_object_sdfs g m ids false false = Ok l /\
  in_bounds (tm_dims m) c = true /\ ~ object_filled m ids false c /\ In (id, t) l /\
  lt32 (fst (sdf_get t c)) (fst (sdf_get s c)) = true.
Proof. exact union_fails. Qed.
Print Assumptions C121_smallest_refuted.

(** Non-vacuity: two objects on a planar map of 4 x 4 cells; in one free cell the field of
    both is the second object's, in another it is more than the first object's. *)
Example union_nonvacuous :
  tmap_ok union_map /\ size_ok (enlarged_dims (tm_dims union_map)) /\ flat (tm_dims union_map) /\
  usable_resolution (g_cx union_geo) /\
  match tm_extract_sdf union_geo union_map inf32 [1; 2] false false,
        tm_make_object_sdfs union_geo union_map [1; 2] false false with
  | Ok (s, _), Ok l =>
      map fst l = [1; 2] /\ lt32 (fst (sdf_get s (I 3 3 0))) zero32 = true /\ gt32 (fst (sdf_get s (I 2 3 0))) zero32 = true
  | _, _ => False
  end /\ union_check = true.
Proof.
  split; [exact union_map_ok|]. split; [vm_compute; repeat split; discriminate|].
  split; [right; right; vm_compute; discriminate|]. split; [exact quarter_usable|].
  split; [vm_compute; auto|exact union_check_true].
Qed.
