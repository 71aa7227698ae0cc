(** The inverse of an origin transform, in doubles. *)
From Coq Require Import Reals Lra Lia Psatz.
From Flocq Require Import Core.Core IEEE754.Binary IEEE754.Bits.
From Verif Require Import Base BaseFacts Floats FloatFacts FloatFacts2 Grid GridFacts Arith SdfQuery SdfField QuerySpec
  QueryProofs QueryReal QueryThms QueryTurn AutoDiffThms DoubleSpec DoubleQuery DoubleEstimate DoubleGrid IdealSpec WallSpec WallProject
  Frame FrameSpec FrameThms PlaceSpec Origin OriginSpec.
Open Scope R_scope.

(** ** Exact rotations *)
Lemma turned_axes w (u y : rvec) :
  turn w (@V reals (- vx u) (- vy u) (- vz u)) y =
  @V reals (dot (turn w u (@V reals 1 0 0)) y) (dot (turn w u (@V reals 0 1 0)) y) (dot (turn w u (@V reals 0 0 1)) y).
Proof. destruct u as [a b c], y as [y1 y2 y3]. unfold turn, dot. cbn [vx vy vz]. rsimp. f_equal; asR; ring. Qed.

Lemma turned_sum w (u y : rvec) : let c1 := turn w u (@V reals 1 0 0) in let c2 := turn w u (@V reals 0 1 0) in
  let c3 := turn w u (@V reals 0 0 1) in
  turn w u y = @V reals (vx c1 * vx y + vx c2 * vy y + vx c3 * vz y) (vy c1 * vx y + vy c2 * vy y + vy c3 * vz y)
                        (vz c1 * vx y + vz c2 * vy y + vz c3 * vz y).
Proof. destruct u as [a b c], y as [y1 y2 y3]. unfold turn. cbn [vx vy vz]. rsimp. f_equal; asR; ring. Qed.

Lemma grid_of_world r P t x : geometry r P -> rigid P t ->
  to_grid P x = @V reals (dot (axis_x P) (@vsub reals x t)) (dot (axis_y P) (@vsub reals x t)) (dot (axis_z P) (@vsub reals x t)).
Proof.
  intros G Rg. unfold axis_x, axis_y, axis_z. rewrite <- turned_axes.
  set (y := turn _ _ _). assert (E : x = to_world P y).
  { rewrite (rigid_world P t Rg). unfold y. rewrite (proj2 (turn_back _ _ (@vsub reals x t) (rigid_unit P t Rg))).
    destruct x as [x1 x2 x3], t as [t1 t2 t3]. unfold vadd, vsub. cbn [vx vy vz]. rsimp. f_equal; asR; ring. }
  rewrite E at 1. apply (g_there_and_back _ _ G).
Qed.

Lemma unit_bounded v : length_squared v = 1 -> bounded_by 1 v.
Proof.
  intros E. unfold length_squared in E. destruct v as [a b c]. cbn [vx vy vz] in *. revert E. rsimp. intros E.
  pose proof (Rle_0_sqr a). pose proof (Rle_0_sqr b). pose proof (Rle_0_sqr c). unfold Rsqr in *.
  repeat split; cbn [vx vy vz]; apply Rabs_le; split; nra.
Qed.

Lemma axes_bounded P t : rigid P t -> bounded_by 1 (axis_x P) /\ bounded_by 1 (axis_y P) /\ bounded_by 1 (axis_z P).
Proof.
  intros Rg. pose proof (rigid_unit P t Rg) as U.
  repeat split; apply unit_bounded; unfold axis_x, axis_y, axis_z; rewrite (turn_length P _ U); unfold length_squared; cbn [vx vy vz]; rsimp; ring.
Qed.

(** ** Sums of three products *)
Lemma prod_err m m' x x' d A e : Rabs (m' - m) <= d -> Rabs m <= 1 -> Rabs x' <= A -> Rabs (x' - x) <= e ->
  Rabs (m' * x' - m * x) <= d * A + e.
Proof.
  intros H1 H2 H3 H4. replace (m' * x' - m * x) with ((m' - m) * x' + m * (x' - x)) by ring.
  eapply Rle_trans; [apply Rabs_triang|]. rewrite !Rabs_mult. apply Rplus_le_compat.
  - apply Rmult_le_compat; auto using Rabs_pos.
  - apply Rle_trans with (1 * e); [|lra]. apply Rmult_le_compat; auto using Rabs_pos.
Qed.

Lemma dot_err m m' x x' d A e : apart_at_most d m' m -> bounded_by 1 m -> bounded_by A x' -> apart_at_most e x' x ->
  Rabs (dot m' x' - dot m x) <= 3 * (d * A) + 3 * e.
Proof.
  intros (M1 & M2 & M3) (B1 & B2 & B3) (X1 & X2 & X3) (E1 & E2 & E3). unfold dot. rsimp.
  pose proof (Rabs_le_inv _ _ (prod_err _ _ _ _ _ _ _ M1 B1 X1 E1)). pose proof (Rabs_le_inv _ _ (prod_err _ _ _ _ _ _ _ M2 B2 X2 E2)).
  pose proof (Rabs_le_inv _ _ (prod_err _ _ _ _ _ _ _ M3 B3 X3 E3)). apply Rabs_le. lra.
Qed.

Section Shift.
  Variable S : R.
  Hypothesis SB : bpow radix2 (-100) <= S <= bpow radix2 100.

  Lemma unit_range : bpow radix2 (-100) <= 1 <= bpow radix2 100.
  Proof using. change 1 with (bpow radix2 0). split; apply bpow_le; lia. Qed.

  Lemma negated x : finite_double x -> Rabs (real64 x) <= 2 ->
    finite_double (sub64 (b64_of_Z 0) x) /\ Rabs (real64 (sub64 (b64_of_Z 0) x) - - real64 x) <= 9 * u.
  Proof using.
    intros F B. destruct (of_Z_exact 0) as (F0 & E0); [lia|]. change (real64 (b64_of_Z 0) = 0) in E0.
    destruct (sub_abs 1 unit_range (b64_of_Z 0) x F0 F) as (F1 & D1).
    { rewrite E0, Rminus_0_l, Rabs_Ropp. lra. }
    split; [exact F1|]. rewrite E0, Rminus_0_l, Rmult_1_r in D1. exact D1.
  Qed.

  Lemma shift_close m t : point_within 2 m -> point_within (S / 4) t ->
    finite_double (inverse_shift m t) /\ Rabs (real64 (inverse_shift m t) - - dot (real_vec m) (real_vec t)) <= 52 * u * S.
  Proof using SB.
    intros ((Fx & Fy & Fz) & Mx & My & Mz) ((Gx & Gy & Gz) & Tx & Ty & Tz). cbn [real_vec vx vy vz] in *.
    assert (P : 0 < S) by (pose proof (bpow_gt_0 radix2 (-100)); lra). pose proof u_tiny as Ut. assert (U0 : 0 < u) by apply bpow_gt_0.
    assert (K : u * S <= S / 1000) by (rewrite (Rmult_comm u); apply Rmult_le_compat_l; lra).
    assert (US : 0 < u * S) by (apply Rmult_lt_0_compat; lra).
    unfold inverse_shift, dot. cbn [real_vec vx vy vz]. rsimp.
    change (dmul ieee) with mul64. change (dadd ieee) with add64. change (dsub ieee) with sub64. change (of_int ieee 0) with (b64_of_Z 0).
    destruct (negated _ Fx Mx) as (N1 & D1). destruct (negated _ Fy My) as (N2 & D2). destruct (negated _ Fz Mz) as (N3 & D3).
    set (n1 := sub64 (b64_of_Z 0) (vx m)) in *. set (n2 := sub64 (b64_of_Z 0) (vy m)) in *. set (n3 := sub64 (b64_of_Z 0) (vz m)) in *.
    clearbody n1 n2 n3.
    assert (Pr : forall n a b, Rabs (n - - a) <= 9 * u -> Rabs a <= 2 -> Rabs b <= S / 4 -> Rabs (n * b - - (a * b)) <= 9 / 4 * (u * S) /\ Rabs (a * b) <= S / 2).
    { intros n a b H1 H2 H3. split.
      - replace (n * b - - (a * b)) with ((n - - a) * b) by ring. rewrite Rabs_mult.
        replace (9 / 4 * (u * S)) with (9 * u * (S / 4)) by field. apply Rmult_le_compat; auto using Rabs_pos.
      - rewrite Rabs_mult. replace (S / 2) with (2 * (S / 4)) by field. apply Rmult_le_compat; auto using Rabs_pos. }
    destruct (Pr _ _ _ D1 Mx Tx) as (E1 & B1). destruct (Pr _ _ _ D2 My Ty) as (E2 & B2). destruct (Pr _ _ _ D3 Mz Tz) as (E3 & B3).
    apply Rabs_le_inv in E1. apply Rabs_le_inv in E2. apply Rabs_le_inv in E3. apply Rabs_le_inv in B1. apply Rabs_le_inv in B2. apply Rabs_le_inv in B3.
    destruct (mul_abs S SB _ _ N1 Gx) as (F1 & Q1); [apply Rabs_le; lra|]. destruct (mul_abs S SB _ _ N2 Gy) as (F2 & Q2); [apply Rabs_le; lra|].
    destruct (mul_abs S SB _ _ N3 Gz) as (F3 & Q3); [apply Rabs_le; lra|].
    apply Rabs_le_inv in Q1. apply Rabs_le_inv in Q2. apply Rabs_le_inv in Q3.
    set (a1 := mul64 n1 (vx t)) in *. set (a2 := mul64 n2 (vy t)) in *. set (a3 := mul64 n3 (vz t)) in *. clearbody a1 a2 a3.
    destruct (add_abs S SB _ _ F1 F2) as (F4 & D4); [apply Rabs_le; lra|]. apply Rabs_le_inv in D4.
    set (a4 := add64 a1 a2) in *. clearbody a4.
    destruct (add_abs S SB _ _ F4 F3) as (F5 & D5); [apply Rabs_le; lra|]. apply Rabs_le_inv in D5.
    split; [exact F5|]. apply Rabs_le. lra.
  Qed.
End Shift.

(** ** The inverse *)
Section Inverse.
  Variables (r : R) (P : pose reals) (t : rvec) (delta eta S : R) (T : transform ieee).
  Hypothesis SB : bpow radix2 (-100) <= S <= bpow radix2 100.
  Hypothesis GP : geometry r P.
  Hypothesis RP : rigid P t.
  Hypothesis Hd : 0 <= delta <= bpow radix2 (-20).
  Hypothesis Ho : origin_within delta eta S T P t.

  Lemma column_within m (c : rvec) : finite_vec m -> apart_at_most delta (real_vec m) c -> bounded_by 1 c ->
    point_within 2 m /\ bounded_by 1.001 (real_vec m).
  Proof using Hd.
    intros F (A1 & A2 & A3) (B1 & B2 & B3).
    assert (Ds : delta <= 0.001) by (apply Rle_trans with (1 := proj2 Hd); change (bpow radix2 (-20)) with (/ 1048576); lra).
    assert (K : forall x y, Rabs (x - y) <= delta -> Rabs y <= 1 -> Rabs x <= 1.001).
    { intros x y H1 H2. apply Rabs_le_inv in H1. apply Rabs_le_inv in H2. apply Rabs_le. lra. }
    pose proof (K _ _ A1 B1) as K1. pose proof (K _ _ A2 B2) as K2. pose proof (K _ _ A3 B3) as K3.
    split; [split; [exact F|]|]; repeat split; try assumption; eapply Rle_trans; try eassumption; lra.
  Qed.

  Lemma inverse_row m (c : rvec) : finite_vec m -> apart_at_most delta (real_vec m) c -> bounded_by 1 c ->
    finite_double (inverse_shift m (shift T)) /\ Rabs (real64 (inverse_shift m (shift T))) <= S /\
    forall x, bounded_by S x ->
      Rabs (dot (real_vec m) x + real64 (inverse_shift m (shift T)) - dot c (@vsub reals x t)) <= 4 * delta * S + 60 * u * S + 3 * eta.
  Proof using SB Hd Ho.
    intros F A B. destruct Ho as (_ & Sh & At). destruct (column_within m c F A B) as (W & (W1 & W2 & W3)).
    destruct (shift_close S SB m (shift T) W Sh) as (Fs & Ds).
    assert (P0 : 0 < S) by (pose proof (bpow_gt_0 radix2 (-100)); lra). pose proof u_tiny as Ut. assert (U0 : 0 < u) by apply bpow_gt_0.
    assert (K : u * S <= S / 1000000) by (rewrite (Rmult_comm u); apply Rmult_le_compat_l; lra).
    assert (US : 0 < u * S) by (apply Rmult_lt_0_compat; lra).
    assert (DS : 0 <= delta * S) by (apply Rmult_le_pos; lra).
    split; [exact Fs|]. split.
    - assert (Dm : Rabs (dot (real_vec m) (real_vec (shift T))) <= 3 * (1.001 * (S / 4))).
      { destruct Sh as (_ & S1 & S2 & S3). unfold dot.
        assert (Pr : forall a b, Rabs a <= 1.001 -> Rabs b <= S / 4 -> Rabs (a * b) <= 1.001 * (S / 4)).
        { intros a b H1 H2. rewrite Rabs_mult. apply Rmult_le_compat; auto using Rabs_pos. }
        pose proof (Rabs_le_inv _ _ (Pr _ _ W1 S1)). pose proof (Rabs_le_inv _ _ (Pr _ _ W2 S2)). pose proof (Rabs_le_inv _ _ (Pr _ _ W3 S3)).
        apply Rabs_le. lra. }
      apply Rabs_le_inv in Dm. apply Rabs_le_inv in Ds. apply Rabs_le. lra.
    - intros x Hx. pose proof (dot_err c (real_vec m) x x delta S 0 A B Hx) as E1.
      pose proof (dot_err c (real_vec m) t (real_vec (shift T)) delta (S / 4) eta A B (proj2 Sh) At) as E2.
      assert (E0 : apart_at_most 0 x x) by (unfold apart_at_most, Rminus; rewrite !Rplus_opp_r, Rabs_R0; lra). specialize (E1 E0).
      assert (L : dot c (@vsub reals x t) = dot c x - dot c t) by (unfold dot, vsub; cbn [vx vy vz]; rsimp; ring).
      rewrite L. apply Rabs_le_inv in E1. apply Rabs_le_inv in E2. apply Rabs_le_inv in Ds. apply Rabs_le. lra.
  Qed.

  Lemma inverse_follows : usable_transform S (inverse_of T) /\
    follows (4 * delta * S + 60 * u * S + 3 * eta) S (inverse_of T) (to_grid P).
  Proof.
    pose proof Ho as (((F1x & F1y & F1z) & (F2x & F2y & F2z) & (F3x & F3y & F3z) & C1 & C2 & C3) & _).
    destruct (axes_bounded P t RP) as (B1 & B2 & B3).
    set (cx := @V ieee (vx (row_x T)) (vx (row_y T)) (vx (row_z T))). set (cy := @V ieee (vy (row_x T)) (vy (row_y T)) (vy (row_z T))).
    set (cz := @V ieee (vz (row_x T)) (vz (row_y T)) (vz (row_z T))).
    assert (Fx : finite_vec cx) by (split; [exact F1x|split; [exact F2x|exact F3x]]).
    assert (Fy : finite_vec cy) by (split; [exact F1y|split; [exact F2y|exact F3y]]).
    assert (Fz : finite_vec cz) by (split; [exact F1z|split; [exact F2z|exact F3z]]).
    destruct (inverse_row cx _ Fx C1 B1) as (G1 & S1 & R1). destruct (inverse_row cy _ Fy C2 B2) as (G2 & S2 & R2).
    destruct (inverse_row cz _ Fz C3 B3) as (G3 & S3 & R3).
    split.
    - split; [apply (column_within cx _ Fx C1 B1)|]. split; [apply (column_within cy _ Fy C2 B2)|]. split; [apply (column_within cz _ Fz C3 B3)|].
      split; [split; [exact G1|split; [exact G2|exact G3]]|split; [exact S1|split; [exact S2|exact S3]]].
    - intros x Hx. rewrite (grid_of_world r P t x GP RP). split; [exact (R1 x Hx)|split; [exact (R2 x Hx)|exact (R3 x Hx)]].
  Qed.

  Lemma forward_follows S' : 0 <= S' -> follows (3 * delta * S' + eta) S' T (to_world P).
  Proof.
    intros S0 x Hx. rewrite (rigid_world P t RP), turned_sum. cbv zeta. fold (axis_x P) (axis_y P) (axis_z P).
    pose proof Ho as ((_ & _ & _ & (X1 & X2 & X3) & (Y1 & Y2 & Y3) & (Z1 & Z2 & Z3)) & _ & (E1 & E2 & E3)).
    assert (K : forall m1 m2 m3 c1 c2 c3 a b, Rabs (m1 - c1) <= delta -> Rabs (m2 - c2) <= delta -> Rabs (m3 - c3) <= delta -> Rabs (a - b) <= eta ->
      Rabs (m1 * vx x + m2 * vy x + m3 * vz x + a - (b + (c1 * vx x + c2 * vy x + c3 * vz x))) <= 3 * delta * S' + eta).
    { intros m1 m2 m3 c1 c2 c3 a b H1 H2 H3 H4. destruct Hx as (V1 & V2 & V3).
      assert (Pr : forall m c y, Rabs (m - c) <= delta -> Rabs y <= S' -> Rabs ((m - c) * y) <= delta * S').
      { intros m c y A B. rewrite Rabs_mult. apply Rmult_le_compat; auto using Rabs_pos. }
      pose proof (Rabs_le_inv _ _ (Pr _ _ _ H1 V1)). pose proof (Rabs_le_inv _ _ (Pr _ _ _ H2 V2)). pose proof (Rabs_le_inv _ _ (Pr _ _ _ H3 V3)).
      apply Rabs_le_inv in H4. apply Rabs_le. lra. }
    split; [exact (K _ _ _ _ _ _ _ _ X1 Y1 Z1 E1)|split; [exact (K _ _ _ _ _ _ _ _ X2 Y2 Z2 E2)|exact (K _ _ _ _ _ _ _ _ X3 Y3 Z3 E3)]].
  Qed.

  Lemma forward_usable : usable_transform S T.
  Proof.
    pose proof Ho as ((F1 & F2 & F3 & (X1 & X2 & X3) & (Y1 & Y2 & Y3) & (Z1 & Z2 & Z3)) & (Fs & S1 & S2 & S3) & _).
    destruct (axes_bounded P t RP) as ((B1 & B2 & B3) & (B4 & B5 & B6) & (B7 & B8 & B9)).
    assert (P0 : 0 < S) by (pose proof (bpow_gt_0 radix2 (-100)); lra).
    assert (Ds : delta <= 0.001) by (apply Rle_trans with (1 := proj2 Hd); change (bpow radix2 (-20)) with (/ 1048576); lra).
    assert (K : forall x y, Rabs (x - y) <= delta -> Rabs y <= 1 -> Rabs x <= 2).
    { intros x y H1 H2. apply Rabs_le_inv in H1. apply Rabs_le_inv in H2. apply Rabs_le. lra. }
    split; [split; [exact F1|split; [exact (K _ _ X1 B1)|split; [exact (K _ _ Y1 B4)|exact (K _ _ Z1 B7)]]]|].
    split; [split; [exact F2|split; [exact (K _ _ X2 B2)|split; [exact (K _ _ Y2 B5)|exact (K _ _ Z2 B8)]]]|].
    split; [split; [exact F3|split; [exact (K _ _ X3 B3)|split; [exact (K _ _ Y3 B6)|exact (K _ _ Z3 B9)]]]|].
    split; [exact Fs|]. split; [lra|split; lra].
  Qed.
End Inverse.
