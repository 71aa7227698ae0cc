(** C56, C77-C79: the image node. *)
From Coq Require Import Reals.
From Flocq Require Import Core.Core IEEE754.Binary.
From Verif Require Import Base Floats FloatFacts2 Grid Image ImageSpec ImageThms ImageOut ImageCase.
Local Open Scope Z_scope.

(** C56 for one partial field, whatever counts as a source. *)
Theorem C56_partial_field : forall h w pixel source p, image_ok h w -> inside h w p ->
  let src s := inside h w s /\ source (pixel (fst s) (snd s)) = true in
  let v := cell_distance (fst (get (update_partial_sdf (mark h w pixel source)) (I (fst p) (snd p) 0))) in
  ((exists s, src s) -> finite64 v /\ exists s, src s /\ B2R64 v = rnd64 (dist p s) /\ forall t, src t -> (dist p s <= chain p t)%R) /\
  ((forall s, ~ src s) -> v = inf64) /\ (finite64 v /\ B2R64 v = 0%R <-> src p).
Proof. exact partial_field. Qed.
Print Assumptions C56_partial_field.

(** C56 for the combined field: the distance to a filled pixel at empty pixels,
    minus that to an empty pixel at filled ones, infinite only when there is no
    such pixel. *)
Theorem C56_empty_pixel : forall h w pixel, image_ok h w -> forall p, inside h w p -> is_empty pixel p ->
  let v := pixel_distance h w pixel (fst p) (snd p) in
  (exists s, (inside h w s /\ is_filled pixel s /\
              forall t, inside h w t -> is_filled pixel t -> (dist p s <= chain p t)%R) /\
     finite64 v /\ B2R64 v = rnd64 (dist p s)) \/
  ((forall t, inside h w t -> ~ is_filled pixel t) /\ v = inf64).
Proof. exact empty_pixel. Qed.
Print Assumptions C56_empty_pixel.

Theorem C56_filled_pixel : forall h w pixel, image_ok h w -> forall p, inside h w p -> is_filled pixel p ->
  let v := pixel_distance h w pixel (fst p) (snd p) in
  (exists s, (inside h w s /\ is_empty pixel s /\
              forall t, inside h w t -> is_empty pixel t -> (dist p s <= chain p t)%R) /\
     finite64 v /\ B2R64 v = (- rnd64 (dist p s))%R) \/
  ((forall t, inside h w t -> ~ is_empty pixel t) /\ v = ninf64).
Proof. exact filled_pixel. Qed.
Print Assumptions C56_filled_pixel.

(** C77: the distance need not be that to the nearest pixel, but the pixel it is
    taken to is at most 8.24 per cent further away (4 - 2 sqrt 2 = 1.0824^2)... *)
Theorem C77_error_empty_partial : forall h w pixel, image_ok h w -> forall p, inside h w p -> is_empty pixel p ->
  (exists f, inside h w f /\ is_filled pixel f) ->
  exists s, inside h w s /\ is_filled pixel s /\ B2R64 (pixel_distance h w pixel (fst p) (snd p)) = rnd64 (dist p s) /\
    forall t, inside h w t -> is_filled pixel t -> (dist p s * dist p s <= (4 - 2 * sqrt 2) * (dist p t * dist p t))%R.
Proof. exact error_empty. Qed.
Print Assumptions C77_error_empty_partial.

Theorem C77_error_filled_partial : forall h w pixel, image_ok h w -> forall p, inside h w p -> is_filled pixel p ->
  (exists e, inside h w e /\ is_empty pixel e) ->
  exists s, inside h w s /\ is_empty pixel s /\ B2R64 (pixel_distance h w pixel (fst p) (snd p)) = (- rnd64 (dist p s))%R /\
    forall t, inside h w t -> is_empty pixel t -> (dist p s * dist p s <= (4 - 2 * sqrt 2) * (dist p t * dist p t))%R.
Proof. exact error_filled. Qed.
Print Assumptions C77_error_filled_partial.

(** ... and exact when the nearest one is straight or diagonally ahead. *)
Theorem C77_straight_empty_partial : forall h w pixel, image_ok h w -> forall p t,
  inside h w p -> is_empty pixel p -> inside h w t -> is_filled pixel t -> straight p t ->
  (forall u, inside h w u -> is_filled pixel u -> (dist p t <= dist p u)%R) ->
  B2R64 (pixel_distance h w pixel (fst p) (snd p)) = rnd64 (dist p t).
Proof. exact straight_empty. Qed.
Print Assumptions C77_straight_empty_partial.

Theorem C77_straight_filled_partial : forall h w pixel, image_ok h w -> forall p t,
  inside h w p -> is_filled pixel p -> inside h w t -> is_empty pixel t -> straight p t ->
  (forall u, inside h w u -> is_empty pixel u -> (dist p t <= dist p u)%R) ->
  B2R64 (pixel_distance h w pixel (fst p) (snd p)) = (- rnd64 (dist p t))%R.
Proof. exact straight_filled. Qed.
Print Assumptions C77_straight_filled_partial.

(** C77 is false: here a filled pixel is 13 away and the field says 13.03 or more. *)
Theorem C77_not_nearest_refuted : image_ok 14 8 /\
  inside 14 8 (12, 5) /\ is_filled three (12, 5) /\ is_empty three (0, 0) /\ dist (0, 0) (12, 5) = 13%R /\
  (13 + / 32 <= B2R64 (pixel_distance 14 8 three 0 0))%R.
Proof. exact (conj three_ok three_distance). Qed.
Print Assumptions C77_not_nearest_refuted.

(** C78: with pixels of both kinds everything is published, empty pixels in a
    shade of red and filled ones in a shade of blue. *)
Theorem C78_preview_partial : forall h w pixel, image_ok h w -> forall e f, inside h w e -> inside h w f ->
  is_empty pixel e -> is_filled pixel f -> forall p, inside h w p ->
  exists c, preview_pixel h w pixel (fst p) (snd p) = Ok c /\
    (is_empty pixel p -> exists r, c = (0, 0, r) /\ 64 <= r <= 128) /\
    (is_filled pixel p -> exists b, c = (b, 0, 0) /\ 64 <= b <= 128).
Proof. exact preview_ok. Qed.
Print Assumptions C78_preview_partial.

Theorem C78_published_partial : forall h w pixel, image_ok h w -> forall e f, inside h w e -> inside h w f ->
  is_empty pixel e -> is_filled pixel f ->
  exists preview, camera_cb h w pixel =
    Ok (map (fun p => raw_pixel h w pixel (fst p) (snd p)) (pixels h w), preview) /\
    List.length preview = List.length (pixels h w).
Proof. exact mixed_published. Qed.
Print Assumptions C78_published_partial.

(** C78 is false: every image of one kind of pixel makes the node convert NaN to
    an 8-bit integer. *)
Theorem C78_uniform_refuted : forall h w pixel, image_ok h w -> 0 < h /\ 0 < w ->
  (forall p, inside h w p -> is_empty pixel p) \/ (forall p, inside h w p -> is_filled pixel p) ->
  exists e, camera_cb h w pixel = UB e.
Proof. exact uniform_undefined. Qed.
Print Assumptions C78_uniform_refuted.

(** C79: the raw image holds the distance in the first channel at empty pixels and
    in the second at filled ones, and the extremes are the largest and smallest. *)
Theorem C79_raw_empty : forall h w pixel, image_ok h w -> forall f, inside h w f -> is_filled pixel f ->
  forall p, inside h w p -> is_empty pixel p ->
  raw_pixel h w pixel (fst p) (snd p) = (b32_of_b64 (pixel_distance h w pixel (fst p) (snd p)), zero32).
Proof. exact raw_empty. Qed.
Print Assumptions C79_raw_empty.

Theorem C79_raw_filled : forall h w pixel, image_ok h w -> forall e, inside h w e -> is_empty pixel e ->
  forall p, inside h w p -> is_filled pixel p ->
  raw_pixel h w pixel (fst p) (snd p) = (zero32, b32_of_b64 (opp64 (pixel_distance h w pixel (fst p) (snd p)))).
Proof. exact raw_filled. Qed.
Print Assumptions C79_raw_filled.

Theorem C79_extremes : forall h w pixel, image_ok h w -> forall e f, inside h w e -> inside h w f ->
  is_empty pixel e -> is_filled pixel f ->
  let v p := pixel_distance h w pixel (fst p) (snd p) in
  finite64 (max_distance h w pixel) /\ finite64 (min_distance h w pixel) /\
  (forall p, inside h w p -> (B2R64 (min_distance h w pixel) <= B2R64 (v p) <= B2R64 (max_distance h w pixel))%R) /\
  (exists p, inside h w p /\ max_distance h w pixel = v p) /\ (exists p, inside h w p /\ min_distance h w pixel = v p).
Proof. exact mixed_extremes. Qed.
Print Assumptions C79_extremes.

Example image_nonvacuous : image_ok 2 3 /\ inside 2 3 (0, 0) /\ inside 2 3 (1, 2) /\ is_filled mixed (0, 0) /\ is_empty mixed (1, 2).
Proof. exact mixed_case. Qed.
