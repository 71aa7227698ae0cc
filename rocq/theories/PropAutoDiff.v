(** C84-C86: the automatically differentiated gradient and the smoothness of the
    distance estimate (real arithmetic, except the first theorem). *)
From Coq Require Import Reals Lra.
From Verif Require Import Base Grid Arith SdfQuery QuerySpec QueryThms QueryTurn AutoDiff AutoDiffSpec
  AutoDiffProofs AutoDiffThms EstimateSteps AutoDiffCase.
Open Scope Z_scope.

(** C84: there is a gradient exactly in the grid; no query fails. *)
Theorem C84_available : forall (A : arith) (f : field A) p loc,
  if in_bounds (f_dims f) (index_of p (to_grid p loc))
  then exists g, auto_diff_gradient f p loc = Ok (Some g)
  else auto_diff_gradient f p loc = Ok None.
Proof. intros A. exact auto_available. Qed.
Print Assumptions C84_available.

(** C84: off the levels of the inner cell centres it is the gradient of the estimate. *)
Theorem C84_is_gradient : forall (f : rfield) p t loc,
  (0 < f_res f)%R -> geometry (f_res f) p -> rigid p t ->
  in_bounds (f_dims f) (index_of p (to_grid p loc)) = true -> off_levels f (to_grid p loc) ->
  exists g, auto_diff_gradient f p loc = Ok (Some g) /\ is_gradient (estimated f p) loc g.
Proof. intros f p t loc Hr G Rg B O. exact (auto_derivative f p t loc _ Hr G Rg B (or_intror O)). Qed.
Print Assumptions C84_is_gradient.

(** C84: wherever the estimate has a gradient, that is the answer. *)
Theorem C84_the_gradient : forall (f : rfield) p t loc n,
  (0 < f_res f)%R -> geometry (f_res f) p -> rigid p t ->
  in_bounds (f_dims f) (index_of p (to_grid p loc)) = true ->
  is_gradient (estimated f p) loc n -> auto_diff_gradient f p loc = Ok (Some n).
Proof. exact auto_gradient_if_any. Qed.
Print Assumptions C84_the_gradient.

(** C85: everywhere in the grid it is the derivative along the displacements that
    lower no grid coordinate. *)
Theorem C85_forward : forall (f : rfield) p t loc,
  (0 < f_res f)%R -> geometry (f_res f) p -> rigid p t ->
  in_bounds (f_dims f) (index_of p (to_grid p loc)) = true ->
  exists g, auto_diff_gradient f p loc = Ok (Some g) /\
    derivative_towards (forward p loc) (estimated f p) loc g.
Proof. intros f p t loc Hr G Rg B. exact (auto_derivative f p t loc _ Hr G Rg B (or_introl (fun h x => x))). Qed.
Print Assumptions C85_forward.

(** C85: for a cell it is the slope of the centred values towards the next cell on
    each axis (towards the one before for the last cell), turned into the world. *)
Theorem C85_at_centers : forall (f : rfield) p t i,
  (0 < f_res f)%R -> geometry (f_res f) p -> rigid p t -> in_bounds (f_dims f) i = true ->
  auto_diff_gradient_of_cell f p i = Ok (Some (turn (rot_w p) (rot_v p) (@V reals
    (step_slope (f_res f) (nx (f_dims f)) (ix i) (fun k => centered_value f (I k (iy i) (iz i))))
    (step_slope (f_res f) (ny (f_dims f)) (iy i) (fun k => centered_value f (I (ix i) k (iz i))))
    (step_slope (f_res f) (nz (f_dims f)) (iz i) (fun k => centered_value f (I (ix i) (iy i) k)))))).
Proof. exact auto_of_cell. Qed.
Print Assumptions C85_at_centers.

(** C85: so at a cell's centre it need not be a gradient: the estimate may have
    none there, and the finite differences answer differently. *)
Theorem C85_no_gradient_there : exists (f : rfield) p i,
  (0 < f_res f)%R /\ geometry (f_res f) p /\ in_bounds (f_dims f) i = true /\
  auto_diff_gradient_of_cell f p i = Ok (Some (@V reals 2 0 0))%R /\
  gradient f p i true = Some (@V reals 0 0 0)%R /\
  forall n, ~ is_gradient (estimated f p) (to_world p (center_of p i)) n.
Proof.
  exists valley, (plain_pose 1), (I 1 0 0). destruct valley_kink as (B & A & G & N).
  split; [exact Rlt_0_1|]. split; [exact (plain_geometry 1 Rlt_0_1)|]. auto.
Qed.
Print Assumptions C85_no_gradient_there.

(** C86: the estimate is Lipschitz in the grid: with centred values that differ by
    at most [M] across a face it changes at most four times as fast, and no faster
    between the centres of the outermost cells. *)
Theorem C86_lipschitz : forall (f : rfield) p q q' M,
  (0 < f_res f)%R -> geometry (f_res f) p -> (0 <= M)%R -> gentle f M ->
  in_bounds (f_dims f) (index_of p q) = true -> in_bounds (f_dims f) (index_of p q') = true ->
  (Rabs (estimated f p (to_world p q) - estimated f p (to_world p q')) <= 4 * (M / f_res f) * path q q')%R.
Proof.
  intros f p q q' M Hr G HM Hg B B'. replace 4%R with (2 * 2)%R by ring.
  exact (estimate_steps f p q q' M 2 Hr G HM Hg B B' (or_introl eq_refl)).
Qed.
Print Assumptions C86_lipschitz.

Theorem C86_lipschitz_between : forall (f : rfield) p q q' M,
  (0 < f_res f)%R -> geometry (f_res f) p -> (0 <= M)%R -> gentle f M ->
  in_bounds (f_dims f) (index_of p q) = true -> in_bounds (f_dims f) (index_of p q') = true ->
  between_centers f q -> between_centers f q' ->
  (Rabs (estimated f p (to_world p q) - estimated f p (to_world p q')) <= M / f_res f * path q q')%R.
Proof.
  intros f p q q' M Hr G HM Hg B B' C C'. rewrite <- (Rmult_1_l (M / f_res f)), <- (Rmult_1_l 1).
  exact (estimate_steps f p q q' M 1 Hr G HM Hg B B' (or_intror (conj eq_refl (conj C C')))).
Qed.
Print Assumptions C86_lipschitz_between.

(** The hypotheses hold for two cells in a row, turned a quarter about z. *)
Example autodiff_case :
  let s := (sqrt (1 / 2))%R in
  let p := (turned_pose 1 s (@V reals 0 0 s) (@V reals 0 0 0))%R in
  let loc := (to_world p (@V reals 1 (1/2) (1/2)))%R in
  (geometry (f_res two_cells) p /\ rigid p (@V reals 0 0 0) /\
   in_bounds (f_dims two_cells) (index_of p (to_grid p loc)) = true /\
   off_levels two_cells (to_grid p loc) /\ gentle two_cells 2 /\
   auto_diff_gradient two_cells p loc = Ok (Some (@V reals 0 2 0)))%R.
Proof. exact turned_auto. Qed.
