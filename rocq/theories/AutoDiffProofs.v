(** Proofs about the automatically differentiated estimate. *)
From Coq Require Import Lia Reals Lra Psatz.
From Verif Require Import Base BaseFacts Grid GridFacts Arith SdfQuery QuerySpec QueryProofs QueryReal QueryThms
  QueryTurn AutoDiff AutoDiffSpec.
Open Scope R_scope.

(** ** One axis *)

(** Which pair of cells an axis interpolates between. *)
Definition level_pair (n k : Z) : Z * Z :=
  if (n =? 1)%Z then (0, 0)%Z else let l := Z.max 0 (Z.min (n - 2) k) in (l, l + 1)%Z.

Lemma cell_unique r (i j : Z) v c : 0 < r -> r * (IZR i + c) <= v < r * (IZR i + c + 1) ->
  r * (IZR j + c) <= v < r * (IZR j + c + 1) -> i = j.
Proof.
  intros Hr (H1 & H2) (H3 & H4).
  assert (A : r * (IZR i + c) < r * (IZR j + c + 1)) by lra.
  assert (B : r * (IZR j + c) < r * (IZR i + c + 1)) by lra.
  apply Rmult_lt_reg_l in A; auto. apply Rmult_lt_reg_l in B; auto.
  assert (A' : IZR i < IZR (j + 1)) by (rewrite plus_IZR; lra).
  assert (B' : IZR j < IZR (i + 1)) by (rewrite plus_IZR; lra).
  apply lt_IZR in A', B'. lia.
Qed.

Lemma axis_level r i n v : 0 < r -> (0 <= i < n)%Z -> r * IZR i <= v < r * (IZR i + 1) ->
  exists k, r * (IZR k + 1/2) <= v < r * (IZR k + 1/2 + 1) /\
    axis_interpolation_indices (A := reals) i n (v - r * (IZR i + 1/2)) = level_pair n k.
Proof.
  intros Hr Hi Hv. unfold axis_interpolation_indices, level_pair. cbv zeta. rsimp.
  destruct (Rle_dec 0 (v - r * (IZR i + 1 / 2))) as [Ho|Ho].
  - exists i. split; [lra|]. destruct (Z.leb_spec n (i + 1)), (Z.ltb_spec (i - 1) 0), (Z.eqb_spec n 1); f_equal; lia.
  - exists (i - 1)%Z. rewrite minus_IZR. split; [lra|].
    destruct (Z.leb_spec n (i + 1)), (Z.ltb_spec (i - 1) 0), (Z.eqb_spec n 1); f_equal; lia.
Qed.

(** The pair stays the same near the point, forwards always, backwards off the
    levels of the inner centres. *)
Lemma axis_stable r i n v l u : 0 < r -> (0 <= i < n)%Z -> r * IZR i <= v < r * (IZR i + 1) ->
  axis_interpolation_indices (A := reals) i n (v - r * (IZR i + 1/2)) = (l, u) ->
  exists delta, 0 < delta /\ forall v' i', Rabs (v' - v) < delta -> (v <= v' \/ between_levels r n v) ->
    r * IZR i' <= v' < r * (IZR i' + 1) ->
    (0 <= i' < n)%Z /\ axis_interpolation_indices (A := reals) i' n (v' - r * (IZR i' + 1/2)) = (l, u).
Proof.
  intros Hr Hi Hv E. destruct (axis_level r i n v Hr Hi Hv) as (k & Hk & Ek). rewrite E in Ek.
  assert (Hn : v < r * IZR n).
  { assert (IZR i + 1 <= IZR n) by (rewrite <- plus_IZR; apply IZR_le; lia).
    apply Rlt_le_trans with (r * (IZR i + 1)); [lra|]. apply Rmult_le_compat_l; lra. }
  assert (V0 : 0 <= v).
  { apply Rle_trans with (r * IZR i); [|lra]. apply Rmult_le_pos; [lra|]. apply IZR_le; lia. }
  assert (R1 : forall v' i', 0 <= v' -> v' < r * IZR n -> r * IZR i' <= v' < r * (IZR i' + 1) -> (0 <= i' < n)%Z).
  { intros v' i' L1 L2 (L3 & L4).
    assert (L5 : r * IZR i' < r * IZR n) by lra. apply Rmult_lt_reg_l in L5; auto. apply lt_IZR in L5.
    assert (L6 : r * 0 < r * (IZR i' + 1)) by lra. apply Rmult_lt_reg_l in L6; auto.
    rewrite <- plus_IZR in L6. apply lt_IZR in L6. lia. }
  pose (d0 := Rmin (r * IZR n - v) (r * (IZR k + 1 / 2 + 1) - v)).
  assert (D0 : 0 < d0) by (unfold d0; apply Rmin_pos; lra).
  assert (D1 : d0 <= r * IZR n - v) by apply Rmin_l.
  assert (D2 : d0 <= r * (IZR k + 1 / 2 + 1) - v) by apply Rmin_r.
  pose (d1 := if Rlt_dec (r * (IZR k + 1/2)) v then v - r * (IZR k + 1/2) else r).
  assert (D3 : 0 < d1) by (unfold d1; destruct (Rlt_dec _ _); lra).
  pose (d2 := if Rlt_dec 0 v then v else 1).
  assert (D4 : 0 < d2) by (unfold d2; destruct (Rlt_dec 0 v); [assumption|apply Rlt_0_1]).
  exists (Rmin d0 (Rmin d1 d2)). split; [apply Rmin_pos; [exact D0|apply Rmin_pos; [exact D3|exact D4]]|].
  intros v' i' Hd Hw Hv'.
  assert (B0 : Rabs (v' - v) < d0) by (apply Rlt_le_trans with (1 := Hd); apply Rmin_l).
  assert (B1 : Rabs (v' - v) < d1) by (apply Rlt_le_trans with (1 := Hd); eapply Rle_trans; [apply Rmin_r|apply Rmin_l]).
  assert (B2 : Rabs (v' - v) < d2) by (apply Rlt_le_trans with (1 := Hd); eapply Rle_trans; [apply Rmin_r|apply Rmin_r]).
  apply Rabs_def2 in B0, B1, B2.
  assert (V1 : 0 <= v').
  { destruct Hw as [Hw|((H0 & _) & _)]; [lra|]. unfold d2 in B2. destruct (Rlt_dec 0 v); lra. }
  assert (Hi' : (0 <= i' < n)%Z) by (apply (R1 v'); auto; lra).
  split; auto. destruct (axis_level r i' n v' Hr Hi' Hv') as (k' & Hk' & Ek'). rewrite Ek', Ek.
  destruct (Rle_lt_dec (r * (IZR k + 1/2)) v') as [C|C].
  - rewrite (cell_unique r k' k v' (1/2)); auto. lra.
  - destruct Hw as [Hw|(_ & Hw)]; [lra|].
    unfold d1 in B1. destruct (Rlt_dec _ _) as [C2|C2]; [lra|].
    assert (Ev : v = r * (IZR k + 1/2)) by lra.
    assert (k' = k - 1)%Z.
    { apply (cell_unique r k' (k - 1) v' (1/2)); auto. rewrite minus_IZR. lra. }
    subst k'. destruct (Z_le_gt_dec k 0) as [K|K].
    + unfold level_pair. cbv zeta. destruct (Z.eqb_spec n 1); f_equal; lia.
    + destruct (Z_le_gt_dec (n - 1) k) as [K2|K2].
      * unfold level_pair. cbv zeta. destruct (Z.eqb_spec n 1); f_equal; lia.
      * exfalso. apply (Hw k); auto. lia.
Qed.

(** ** The polynomial of one set of eight cells *)
Section Poly.
  Variable c : Z -> Z -> Z -> R.
  Variables (r : R) (xl xu yl yu zl zu : Z).
  Hypothesis Hr : 0 < r.

  Definition local (l : Z) (v : R) : R := (v - r * (IZR l + 1/2)) / r.
  Definition poly (q : rvec) : R :=
    let tx := local xl (vx q) in let ty := local yl (vy q) in let tz := local zl (vz q) in
    lerp tz (lerp ty (lerp tx (c xl yl zl) (c xu yl zl)) (lerp tx (c xl yu zl) (c xu yu zl)))
            (lerp ty (lerp tx (c xl yl zu) (c xu yl zu)) (lerp tx (c xl yu zu) (c xu yu zu))).
  Definition poly_slope (q : rvec) : rvec :=
    let tx := local xl (vx q) in let ty := local yl (vy q) in let tz := local zl (vz q) in
    let dx y z := (c xu y z - c xl y z) / r in
    let dy x z := (c x yu z - c x yl z) / r in
    let dz x y := (c x y zu - c x y zl) / r in
    @V reals (lerp tz (lerp ty (dx yl zl) (dx yu zl)) (lerp ty (dx yl zu) (dx yu zu)))
             (lerp tz (lerp tx (dy xl zl) (dy xu zl)) (lerp tx (dy xl zu) (dy xu zu)))
             (lerp ty (lerp tx (dz xl yl) (dz xu yl)) (lerp tx (dz xl yu) (dz xu yu))).

  Lemma poly_error q : exists K, 0 <= K /\ forall (u : rvec) m, m <= 1 ->
    Rabs (vx u) <= m -> Rabs (vy u) <= m -> Rabs (vz u) <= m ->
    Rabs (poly (vadd q u) - poly q - dot (poly_slope q) u) <= K * (m * m).
  Proof.
    set (tx := local xl (vx q)). set (ty := local yl (vy q)). set (tz := local zl (vz q)).
    pose (a4 := c xl yl zl - c xu yl zl - c xl yu zl + c xu yu zl).
    pose (a5 := c xl yl zl - c xu yl zl - c xl yl zu + c xu yl zu).
    pose (a6 := c xl yl zl - c xl yu zl - c xl yl zu + c xl yu zu).
    pose (a7 := c xu yl zl + c xl yu zl + c xl yl zu - c xu yu zl - c xu yl zu - c xl yu zu - c xl yl zl + c xu yu zu).
    pose (A := (a4 + a7 * tz) / (r * r)). pose (B := (a5 + a7 * ty) / (r * r)). pose (C := (a6 + a7 * tx) / (r * r)).
    pose (E := a7 / (r * r * r)).
    exists (Rabs A + Rabs B + Rabs C + Rabs E).
    pose proof (Rabs_pos A). pose proof (Rabs_pos B). pose proof (Rabs_pos C). pose proof (Rabs_pos E).
    split; [lra|]. intros u m Hm Hx Hy Hz.
    replace (poly (vadd q u) - poly q - dot (poly_slope q) u)
      with (A * (vx u * vy u) + B * (vx u * vz u) + C * (vy u * vz u) + E * (vx u * vy u * vz u)).
    2:{ unfold A, B, C, E, a4, a5, a6, a7, tx, ty, tz, poly, poly_slope, local, dot, vadd, lerp. cbn [vx vy vz]. rsimp.
        field. lra. }
    assert (M : forall s a b, Rabs a <= m -> Rabs b <= m -> Rabs (s * (a * b)) <= Rabs s * (m * m)).
    { intros s a b Ha Hb. rewrite !Rabs_mult. apply Rmult_le_compat_l; [apply Rabs_pos|].
      apply Rmult_le_compat; auto using Rabs_pos. }
    assert (M3 : Rabs (E * (vx u * vy u * vz u)) <= Rabs E * (m * m)).
    { rewrite !Rabs_mult. apply Rmult_le_compat_l; [apply Rabs_pos|].
      pose proof (Rabs_pos (vx u)). pose proof (Rabs_pos (vy u)). pose proof (Rabs_pos (vz u)).
      assert (Rabs (vx u) * Rabs (vy u) <= m * m) by (apply Rmult_le_compat; auto).
      assert (0 <= Rabs (vx u) * Rabs (vy u)) by (apply Rmult_le_pos; auto).
      apply Rle_trans with (m * m * 1); [|lra]. apply Rmult_le_compat; auto. lra. }
    pose proof (M A _ _ Hx Hy). pose proof (M B _ _ Hx Hz). pose proof (M C _ _ Hy Hz).
    eapply Rle_trans; [apply Rabs_triang|]. eapply Rle_trans; [apply Rplus_le_compat_r, Rabs_triang|].
    eapply Rle_trans; [apply Rplus_le_compat_r, Rplus_le_compat_r, Rabs_triang|]. lra.
  Qed.
End Poly.

(** ** Evaluation with pairs *)
Notation rdual := (duals reals).
Notation con := (constant (A := reals)).
Notation "<< v , x , y , z >>" := ((v, @V reals x y z) : dbl rdual).

Lemma con_add a b : dadd rdual (con a) (con b) = con (a + b).
Proof. cbn. unfold dual_add, constant, no_change, vadd. cbn. f_equal. f_equal; asR; ring. Qed.
Lemma con_sub a b : dsub rdual (con a) (con b) = con (a - b).
Proof. cbn. unfold dual_sub, constant, no_change, vsub. cbn. f_equal. f_equal; asR; ring. Qed.
Lemma con_mul a b : dmul rdual (con a) (con b) = con (a * b).
Proof. cbn. unfold dual_mul, constant, no_change, vadd, vscale. cbn. f_equal. f_equal; asR; ring. Qed.
Lemma con_div a b : ddiv rdual (con a) (con b) = con (a / b).
Proof. cbn. unfold dual_div, constant, no_change, vadd, vsub, vscale. cbn. f_equal. f_equal; asR; ring. Qed.
Lemma con_int n : of_int rdual n = con (IZR n).
Proof. reflexivity. Qed.
Lemma con_minus a v x y z : dsub rdual (con a) <<v, x, y, z>> = <<a - v, - x, - y, - z>>.
Proof. cbn. unfold dual_sub, constant, no_change, vsub. cbn. f_equal. f_equal; asR; ring. Qed.
Lemma minus_con a v x y z : dsub rdual <<v, x, y, z>> (con a) = <<v - a, x, y, z>>.
Proof. cbn. unfold dual_sub, constant, no_change, vsub. cbn. f_equal. f_equal; asR; ring. Qed.
Lemma con_times a v x y z : dmul rdual (con a) <<v, x, y, z>> = <<a * v, a * x, a * y, a * z>>.
Proof. cbn. unfold dual_mul, constant, no_change, vadd, vscale. cbn. f_equal. f_equal; asR; ring. Qed.
Lemma times_con a v x y z : dmul rdual <<v, x, y, z>> (con a) = <<v * a, a * x, a * y, a * z>>.
Proof. cbn. unfold dual_mul, constant, no_change, vadd, vscale. cbn. f_equal. f_equal; asR; ring. Qed.
Lemma pair_add v x y z v' x' y' z' :
  dadd rdual <<v, x, y, z>> <<v', x', y', z'>> = <<v + v', x + x', y + y', z + z'>>.
Proof. reflexivity. Qed.
Lemma pair_sub v x y z v' x' y' z' :
  dsub rdual <<v, x, y, z>> <<v', x', y', z'>> = <<v - v', x - x', y - y', z - z'>>.
Proof. reflexivity. Qed.
Lemma pair_mul v x y z v' x' y' z' :
  dmul rdual <<v, x, y, z>> <<v', x', y', z'>> =
  <<v * v', v' * x + v * x', v' * y + v * y', v' * z + v * z'>>.
Proof. cbn. unfold dual_mul, vadd, vscale. cbn. f_equal. f_equal; asR; ring. Qed.

Ltac duals_ := rewrite ?con_int, ?con_add, ?con_sub, ?con_mul, ?con_div, ?con_minus, ?minus_con, ?con_times, ?times_con,
  ?pair_add, ?pair_sub, ?pair_mul.

Lemma dual_bilinear l1 h1 l2 h2 v1 a1 b1 c1 v2 a2 b2 c2 ll lh hl hh :
  bilinear (A := rdual) (con l1) (con h1) (con l2) (con h2) <<v1, a1, b1, c1>> <<v2, a2, b2, c2>>
    (con ll) (con lh) (con hl) (con hh) =
  let m := 1 / ((h1 - l1) * (h2 - l2)) in
  let s1 := m * ((hl - ll) * (h2 - v2) + (hh - lh) * (v2 - l2)) in
  let s2 := m * ((lh - ll) * (h1 - v1) + (hh - hl) * (v1 - l1)) in
  <<bilinear (A := reals) l1 h1 l2 h2 v1 v2 ll lh hl hh,
    s1 * a1 + s2 * a2, s1 * b1 + s2 * b2, s1 * c1 + s2 * c2>>.
Proof.
  unfold bilinear. cbv zeta. rsimp. duals_. generalize (1 / ((h1 - l1) * (h2 - l2))). intros m.
  duals_. apply f_equal2; [reflexivity|]. f_equal; asR; ring.
Qed.

Lemma dual_trilinear r (c : rvec) (Q : vec rdual) mmm mmp mpm mpp pmm pmp ppm ppp : 0 < r ->
  trilinear (A := rdual) (con r) (constants c) Q
    (con mmm) (con mmp) (con mpm) (con mpp) (con pmm) (con pmp) (con ppm) (con ppp) =
  (trilinear (A := reals) r c (values Q) mmm mmp mpm mpp pmm pmp ppm ppp,
   let tx := (vx (values Q) - vx c) / r in let ty := (vy (values Q) - vy c) / r in
   let tz := (vz (values Q) - vz c) / r in
   let sx := lerp tz (lerp ty ((pmm - mmm) / r) ((ppm - mpm) / r)) (lerp ty ((pmp - mmp) / r) ((ppp - mpp) / r)) in
   let sy := lerp tz (lerp tx ((mpm - mmm) / r) ((ppm - pmm) / r)) (lerp tx ((mpp - mmp) / r) ((ppp - pmp) / r)) in
   let sz := lerp ty (lerp tx ((mmp - mmm) / r) ((pmp - pmm) / r)) (lerp tx ((mpp - mpm) / r) ((ppp - ppm) / r)) in
   let s := @V reals sx sy sz in
   let col (k : rvec -> R) := @V reals (k (snd (vx Q))) (k (snd (vy Q))) (k (snd (vz Q))) in
   @V reals (dot s (col vx)) (dot s (col vy)) (dot s (col vz))).
Proof.
  intros Hr. destruct Q as [[qx [ax bx cx]] [qy [ay by_ cy]] [qz [az bz cz]]]. destruct c as [x y z].
  unfold values, trilinear, bilinear_xy, constants. cbn [vx vy vz fst snd]. duals_.
  rewrite !dual_bilinear. cbv zeta. repeat (progress duals_). cbn [vx vy vz fst snd].
  apply f_equal2; [reflexivity|]. unfold dot, lerp, bilinear. cbn [vx vy vz]. rsimp.
  f_equal; asR; field; lra.
Qed.
