(** Theorems about extraction with a virtual border and from collision maps. *)
From Coq Require Import Reals Lra.
From Flocq Require Import Core.Core IEEE754.Binary IEEE754.Bits.
From Verif Require Import Base BaseFacts Floats FloatFacts FloatFacts2 Grid GridFacts
  DistSpec DistModel DistProofs DistThms CollisionMap SdfGen SdfSpec SdfGenProofs SdfThms.
Open Scope Z_scope.

Lemma border_dims_eq d : border_dims d = enlarged_dims d.
Proof.
  unfold border_dims, enlarged_dims, enlarged, size_offset.
  destruct (1 <? nx d), (1 <? ny d), (1 <? nz d); f_equal; lia.
Qed.

Ltac axes d :=
  unfold real_index, virtual_index, border_cell, on_border, border_dims, size_offset, query_offset in *;
  destruct (1 <? nx d) eqn:?Ax; destruct (1 <? ny d) eqn:?Ay; destruct (1 <? nz d) eqn:?Az;
  cbn [nx ny nz ix iy iz andb orb] in *.

Ltac zb := repeat match goal with
  | H : (_ || _) = false |- _ => apply Bool.orb_false_iff in H; destruct H
  | H : (_ =? _) = false |- _ => apply Z.eqb_neq in H
  | H : (_ =? _) = true |- _ => apply Z.eqb_eq in H
  | H : (_ <? _) = true |- _ => apply Z.ltb_lt in H
  | H : (_ <? _) = false |- _ => apply Z.ltb_ge in H
  end.

Lemma real_in_bounds d v : in_bounds (border_dims d) v = true -> border_cell d v = false ->
  in_bounds d (real_index d v) = true.
Proof.
  intros Hv Hb. apply in_bounds_spec in Hv. apply in_bounds_spec.
  axes d; zb; lia.
Qed.

Lemma virtual_in_bounds d i : in_bounds d i = true ->
  in_bounds (border_dims d) (virtual_index d i) = true /\
  border_cell d (virtual_index d i) = false /\
  real_index d (virtual_index d i) = i.
Proof.
  intros Hi. apply in_bounds_spec in Hi. rewrite in_bounds_spec. split; [|split].
  - axes d; zb; lia.
  - axes d; zb; rewrite ?Bool.orb_false_iff, ?Z.eqb_neq; repeat split; lia.
  - destruct i as [x y z]. axes d; f_equal; lia.
Qed.

Lemma virtual_real d v : virtual_index d (real_index d v) = v.
Proof. destruct v as [x y z]. axes d; f_equal; lia. Qed.

Lemma real_border_outside d v : in_bounds (border_dims d) v = true -> border_cell d v = true ->
  outside_shell d (real_index d v).
Proof.
  intros Hv Hb. apply in_bounds_spec in Hv. split.
  - destruct (in_bounds d (real_index d v)) eqn:E; auto. exfalso. apply in_bounds_spec in E.
    axes d; repeat rewrite ?Bool.orb_true_iff, ?Z.eqb_eq in Hb; zb; try lia; try discriminate.
  - unfold beyond. axes d; zb; lia.
Qed.

Lemma outside_virtual d p : outside_shell d p ->
  in_bounds (border_dims d) (virtual_index d p) = true /\
  border_cell d (virtual_index d p) = true /\ real_index d (virtual_index d p) = p.
Proof.
  intros (Hp & Bx & By & Bz). unfold beyond in *. rewrite in_bounds_spec. split; [|split].
  - axes d; zb; lia.
  - destruct (border_cell d (virtual_index d p)) eqn:E; auto. exfalso.
    assert (in_bounds d p = true); [|congruence]. apply in_bounds_spec.
    axes d; zb; lia.
  - destruct p as [x y z]. axes d; f_equal; lia.
Qed.

Lemma distsq_virtual d a b : distsq (virtual_index d a) (virtual_index d b) = distsq a b.
Proof.
  unfold distsq, virtual_index. cbn [ix iy iz]. 
  replace (ix a + query_offset (nx d) - (ix b + query_offset (nx d))) with (ix a - ix b) by lia.
  replace (iy a + query_offset (ny d) - (iy b + query_offset (ny d))) with (iy a - iy b) by lia.
  replace (iz a + query_offset (nz d) - (iz b + query_offset (nz d))) with (iz a - iz b) by lia.
  reflexivity.
Qed.

Definition vfilled (d : dims) (border : bool) (P : idx -> bool) (v : idx) : bool :=
  if border_cell d v then border else P (real_index d v).

Lemma border_answers d b is_filled P : answers d is_filled P ->
  answers (border_dims d) (border_filled d b is_filled) (vfilled d b P).
Proof.
  intros H v Hv. unfold border_filled, vfilled.
  destruct (border_cell d v) eqn:E; auto. apply H. apply real_in_bounds; auto.
Qed.

(** Other-class cells of the enlarged grid seen from a cell of the real grid. *)
Lemma manhattan_virtual d a b :
  manhattan (virtual_index d a) (virtual_index d b) = manhattan a b.
Proof. unfold manhattan, virtual_index. cbn [ix iy iz]. lia. Qed.

Lemma border_flat d : flat d -> flat (border_dims d).
Proof.
  rewrite border_dims_eq. unfold flat, enlarged_dims, enlarged. cbn [nx ny nz].
  destruct (Z.ltb_spec 1 (nx d)), (Z.ltb_spec 1 (ny d)), (Z.ltb_spec 1 (nz d)); lia.
Qed.

Lemma other_virtual d P c q : in_bounds d c = true ->
  (other_class (border_dims d) (vfilled d (negb (P c)) P) (virtual_index d c) q <->
   in_bounds (border_dims d) q = true /\ other_or_outside d P c (real_index d q)).
Proof.
  intros Hc. destruct (virtual_in_bounds d c Hc) as (V1 & V2 & V3).
  unfold other_class, other_or_outside, other_class.
  replace (vfilled d (negb (P c)) P (virtual_index d c)) with (P c)
    by (unfold vfilled; rewrite V2, V3; reflexivity).
  unfold vfilled. split.
  - intros (Hq & Hne). split; auto. destruct (border_cell d q) eqn:E.
    + right. apply real_border_outside; auto.
    + left. split; auto. apply real_in_bounds; auto.
  - intros (Hq & [(Hr & Hne)|Ho]); split; auto; destruct (border_cell d q) eqn:E; auto.
    + destruct (P c); discriminate.
    + destruct (P c); discriminate.
    + exfalso. destruct Ho as (Ho & _). rewrite real_in_bounds in Ho; auto. discriminate.
Qed.

Lemma combine_pos a b : is_nan 24 128 a = false -> gt32 a zero32 = true -> combine_values a b = a.
Proof. intros N H. unfold combine_values, ge32. rewrite H. reflexivity. Qed.
Lemma combine_neg a b : is_nan 24 128 a = false -> lt32 a zero32 = true -> lt32 b zero32 = true ->
  combine_values a b = b.
Proof.
  intros N Ha Hb. unfold combine_values, le32. rewrite Hb. cbn [orb].
  destruct (ge32 a zero32) eqn:E; auto. exfalso.
  apply ge32_spec in E; auto. apply lt32_spec in Ha; auto. lra.
Qed.

(** Writing every cell of a fresh field. *)
Lemma write_all (val : idx -> binary32) l : forall s,
  s_locked s = false -> wf_grid (s_grid s) -> NoDup l ->
  (forall i, In i l -> in_bounds (sdf_dims s) i = true) ->
  let s' := fold_left (fun s i => fst (sdf_set s i (val i))) l s in
  sdf_dims s' = sdf_dims s /\ s_res s' = s_res s /\ s_frame s' = s_frame s /\
  s_locked s' = false /\ goob (s_grid s') = goob (s_grid s) /\ wf_grid (s_grid s') /\
  (forall c, In c l -> gget (s_grid s') c = val c) /\
  (forall c, ~ In c l -> gget (s_grid s') c = gget (s_grid s) c).
Proof.
  induction l as [|i l IH]; intros s Hl Hw Hn Hb; cbn zeta.
  - cbn. intuition; contradiction.
  - cbn [fold_left]. inversion Hn as [|? ? Hni Hn']; subst.
    assert (Hi : in_bounds (sdf_dims s) i = true) by (apply Hb; left; auto).
    set (s1 := fst (sdf_set s i (val i))).
    assert (E1 : s1 = SDF (gset (s_grid s) i (val i)) (s_res s) (s_frame s) (s_locked s)).
    { unfold s1, sdf_set. rewrite Hi, Hl. reflexivity. }
    destruct (IH s1) as (A1 & A2 & A3 & A4 & A5 & A6 & A7 & A8).
    + rewrite E1; auto.
    + rewrite E1; cbn [s_grid]. apply gset_wf; auto.
    + auto.
    + intros j Hj. rewrite E1. unfold sdf_dims; cbn [s_grid]. rewrite gset_dims. apply Hb. right; auto.
    + split; [rewrite A1, E1; apply gset_dims|].
      split; [rewrite A2, E1; reflexivity|]. split; [rewrite A3, E1; reflexivity|].
      split; [exact A4|]. split; [rewrite A5, E1; apply gset_oob|]. split; [exact A6|]. split.
      * intros c [Hc|Hc]; [subst c|auto]. rewrite A8 by auto. rewrite E1. cbn [s_grid].
        rewrite gget_gset by auto. rewrite idx_eqb_refl. reflexivity.
      * intros c Hc. rewrite A8 by (intros H; apply Hc; right; auto). rewrite E1. cbn [s_grid].
        rewrite gget_gset by auto. destruct (idx_eqb i c) eqn:E; auto.
        apply idx_eqb_eq in E. exfalso. apply Hc. left; auto.
Qed.

Section Border.
  Variables (d : dims) (r : binary64) (oob : binary32) (frame : string).
  Variables (is_filled : idx -> res bool) (P : idx -> bool).
  Hypothesis Hs : size_ok (enlarged_dims d).
  Hypothesis Hd0 : 0 <= nx d /\ 0 <= ny d /\ 0 <= nz d.
  Hypothesis Hr : usable_resolution r.
  Hypothesis HP : answers d is_filled P.

  Lemma ne64_refl : ne64 r r = false.
  Proof.
    destruct Hr as (F & _). unfold ne64. assert (N : is_nan 53 1024 r = false) by (destruct r; auto; discriminate).
    destruct (eq64 r r) eqn:E; auto. exfalso.
    assert (E2 : eq64 r r = true) by (apply eq64_spec; auto). congruence.
  Qed.

  Lemma border_facts :
    exists s mx mn, extract_sdf_grid d r r r is_filled oob frame true = Ok (s, (mx, mn)) /\
      sdf_dims s = d /\ s_res s = r /\ s_frame s = frame /\ s_locked s = false /\
      goob (s_grid s) = oob /\
      is_nan _ _ mx = false /\ is_nan _ _ mn = false /\
      (exists o : idx -> option Z,
        (forall c, in_bounds d c = true ->
           (forall m, o c = Some m -> 1 <= m <= 2147483647 /\
              exists p, other_or_outside d P c p /\ distsq c p = m) /\
           (forall v, nearest_other_or_outside d P c v -> v <= 6 -> o c = Some v) /\
           sdf_get s c = (signed_value (P c) (o c) r, true)) /\
        (flat d -> forall c p, in_bounds d c = true -> other_or_outside d P c p ->
           exists z, o c = Some z /\ z <= manhattan c p * manhattan c p)) /\
      (* the reported extrema *)
      (forall c, in_bounds d c = true -> P c = false ->
         le32 (fst (sdf_get s c)) (b32_of_b64 mx) = true) /\
      (forall c, in_bounds d c = true -> P c = true ->
         ge32 (fst (sdf_get s c)) (b32_of_b64 mn) = true) /\
      ((exists c, in_bounds d c = true /\ P c = false) ->
       exists c, in_bounds d c = true /\ fst (sdf_get s c) = b32_of_b64 mx) /\
      ((exists c, in_bounds d c = true /\ P c = true) ->
       exists c, in_bounds d c = true /\ fst (sdf_get s c) = b32_of_b64 mn) /\
      (0 < ncells d -> (forall c, in_bounds d c = true -> P c = true) -> mx = ninf64) /\
      (0 < ncells d -> (forall c, in_bounds d c = true -> P c = false) -> mn = inf64).
  Proof.
    pose proof Hs as Hs'. rewrite <- border_dims_eq in Hs'.
    destruct (extract_facts (border_dims d) r oob frame (border_filled d true is_filled)
                (vfilled d true P) Hs' Hr (border_answers d true is_filled P HP))
      as (s1 & mx1 & mn1 & E1 & A1 & A2 & A3 & A4 & A5 & A6 & A7 & A8 & o1 & A9 & A10 & A11).
    destruct (extract_facts (border_dims d) r oob frame (border_filled d false is_filled)
                (vfilled d false P) Hs' Hr (border_answers d false is_filled P HP))
      as (s2 & mx2 & mn2 & E2 & B1 & B2 & B3 & B4 & B5 & B6 & B7 & B8 & o2 & B9 & B10 & B11).
    unfold extract_sdf_grid. rewrite ne64_refl. cbn [orb negb].
    rewrite E1. cbn [bind]. rewrite E2. cbn [bind fst snd].
    set (val := fun i => combine_values (fst (sdf_get s1 (virtual_index d i)))
                                        (fst (sdf_get s2 (virtual_index d i)))).
    set (s := fold_left _ _ _).
    destruct (write_all val (sweep d) (new_sdf d r oob frame)) as (C1 & C2 & C3 & C4 & C5 & C6 & C7 & _).
    { reflexivity. }
    { unfold new_sdf; cbn [s_grid]. apply mk_grid_wf; lia. }
    { apply sweep_nodup. }
    { intros i Hi. apply sweep_in in Hi. exact Hi. }
    change (fold_left (fun s i => fst (sdf_set s i (val i))) (sweep d) (new_sdf d r oob frame)) with s in *.
    assert (D1 : gdims (s_grid s) = d) by exact C1.
    exists s, mx1, mn2. split; auto.
    assert (G : forall c, in_bounds d c = true -> sdf_get s c = (val c, true)).
    { intros c Hc. unfold sdf_get. rewrite get_eq, D1, Hc. rewrite C7; auto. apply sweep_in; auto. }
    (* the two values of a real cell *)
    assert (Vf : forall c, in_bounds d c = true ->
      vfilled d true P (virtual_index d c) = P c /\ vfilled d false P (virtual_index d c) = P c).
    { intros c Hc. destruct (virtual_in_bounds d c Hc) as (V1 & V2 & V3). unfold vfilled.
      rewrite V2, V3. auto. }
    set (o := fun c => if P c then o2 (virtual_index d c) else o1 (virtual_index d c)).
    assert (HO1 : forall v, in_bounds (border_dims d) v = true ->
               forall m, o1 v = Some m -> 1 <= m <= 2147483647) by (intros v Hv m Hm; apply (A9 v Hv); auto).
    assert (HO2 : forall v, in_bounds (border_dims d) v = true ->
               forall m, o2 v = Some m -> 1 <= m <= 2147483647) by (intros v Hv m Hm; apply (B9 v Hv); auto).
    assert (Val : forall c, in_bounds d c = true -> val c = signed_value (P c) (o c) r).
    { intros c Hc. destruct (virtual_in_bounds d c Hc) as (V1 & V2 & V3).
      destruct (Vf c Hc) as (F1 & F2).
      destruct (A9 _ V1) as (_ & _ & G1 & _). destruct (B9 _ V1) as (_ & _ & G2 & _).
      unfold val. rewrite G1, G2. cbn [fst]. rewrite F1, F2. unfold o. destruct (P c).
      - apply combine_neg.
        + apply signed_value_sign; auto. apply HO1; auto.
        + apply signed_value_neg; auto. apply HO1; auto.
        + apply signed_value_neg; auto. apply HO2; auto.
      - apply combine_pos.
        + apply signed_value_sign; auto. apply HO1; auto.
        + apply signed_value_pos; auto. apply HO1; auto. }
    repeat (split; [solve [auto]|]).
    assert (SV1 : forall v, in_bounds (border_dims d) v = true ->
       b32_of_b64 (signed_double r (vfilled d true P) v (o1 v)) = signed_value (vfilled d true P v) (o1 v) r).
    { intros v Hv. eapply signed_double_ok; eauto. }
    assert (SV2 : forall v, in_bounds (border_dims d) v = true ->
       b32_of_b64 (signed_double r (vfilled d false P) v (o2 v)) = signed_value (vfilled d false P v) (o2 v) r).
    { intros v Hv. eapply signed_double_ok; eauto. }
    assert (Nc : (exists c, in_bounds d c = true) -> 0 < ncells (border_dims d)).
    { intros (c & Hc). destruct (virtual_in_bounds d c Hc) as (V1 & _). 
      pose proof (data_index_range _ _ V1). lia. }
    assert (Nc' : 0 < ncells d -> exists c, in_bounds d c = true).
    { intros H. destruct (sweep d) as [|c l] eqn:Es.
      - assert (L : List.length (sweep d) = Z.to_nat (ncells d)) by (apply sweep_length; lia).
        rewrite Es in L. cbn in L. lia.
      - exists c. apply sweep_in. rewrite Es. left; auto. }
    split.
    { exists o. split.
      2:{ intros Hfl c p Hc Hp. destruct (virtual_in_bounds d c Hc) as (V1 & _).
        rewrite <- (manhattan_virtual d).
        assert (Hb : in_bounds (border_dims d) (virtual_index d p) = true /\
                     real_index d (virtual_index d p) = p).
        { destruct Hp as [(Hp & _)|Hp].
          - apply virtual_in_bounds in Hp. tauto.
          - apply outside_virtual in Hp. tauto. }
        destruct Hb as (Hb1 & Hb2).
        assert (K : other_class (border_dims d) (vfilled d (negb (P c)) P) (virtual_index d c)
                      (virtual_index d p)).
        { apply other_virtual; auto. rewrite Hb2. auto. }
        unfold o. destruct (P c); cbn [negb] in K; [apply B11|apply A11]; auto using border_flat. }
      intros c Hc. destruct (virtual_in_bounds d c Hc) as (V1 & V2 & V3).
      split; [|split].
      - intros m Hm. unfold o in Hm.
        assert (K : 1 <= m <= 2147483647 /\ exists q,
                  other_class (border_dims d) (vfilled d (negb (P c)) P) (virtual_index d c) q /\
                  distsq (virtual_index d c) q = m).
        { destruct (P c); cbn [negb]; [apply (B9 _ V1)|apply (A9 _ V1)]; auto. }
        destruct K as (K1 & q & K2 & K3). split; auto. apply other_virtual in K2; auto.
        exists (real_index d q). split; [tauto|].
        rewrite <- (distsq_virtual d), virtual_real. auto.
      - intros v ((p & Hp & Hdp) & Hmin) H6.
        assert (K : nearest_other (border_dims d) (vfilled d (negb (P c)) P) (virtual_index d c) v).
        { split.
          - exists (virtual_index d p). split; [|rewrite distsq_virtual; auto].
            apply other_virtual; auto.
            assert (Hb : in_bounds (border_dims d) (virtual_index d p) = true /\
                         real_index d (virtual_index d p) = p).
            { destruct Hp as [(Hp & _)|Hp].
              - apply virtual_in_bounds in Hp. tauto.
              - apply outside_virtual in Hp. tauto. }
            split; [tauto|]. replace (real_index d (virtual_index d p)) with p by (symmetry; tauto).
            auto.
          - intros q Hq. apply other_virtual in Hq; auto.
            rewrite <- (virtual_real d q), distsq_virtual. apply Hmin. tauto. }
        unfold o. destruct (P c); cbn [negb] in K; [apply (B9 _ V1)|apply (A9 _ V1)]; auto.
      - rewrite G, Val; auto. }
    (* bounds *)
    split; [|split; [|split; [|split; [|split]]]].
    - intros c Hc Hf. rewrite G by auto. cbn [fst]. rewrite Val by auto. unfold o. rewrite Hf.
      destruct (virtual_in_bounds d c Hc) as (V1 & _). destruct (Vf c Hc) as (F1 & _).
      rewrite Hf in F1. rewrite <- F1, <- SV1 by auto.
      destruct (A9 _ V1) as (_ & _ & _ & N & L & U).
      apply le32_spec; [apply to32_xr; auto|apply to32_xr; auto|]. apply to32_le; auto.
    - intros c Hc Hf. rewrite G by auto. cbn [fst]. rewrite Val by auto. unfold o. rewrite Hf.
      destruct (virtual_in_bounds d c Hc) as (V1 & _). destruct (Vf c Hc) as (_ & F1).
      rewrite Hf in F1. pose proof (SV2 _ V1) as K. rewrite F1 in K. rewrite <- K.
      destruct (B9 _ V1) as (_ & _ & _ & N & L & U).
      apply ge32_spec; [apply to32_xr; auto|apply to32_xr; auto|]. apply to32_le; auto.
    - intros (c & Hc & Hf). destruct (A10 (Nc (ex_intro _ c Hc))) as ((v & Hv & Ev) & _).
      destruct (virtual_in_bounds d c Hc) as (V1 & _). destruct (Vf c Hc) as (F1 & _).
      destruct (A9 _ V1) as (_ & _ & _ & N & L & U).
      assert (Pv : vfilled d true P v = false).
      { destruct (vfilled d true P v) eqn:Q; auto. exfalso.
        destruct (signed_double_ok r (vfilled d true P) Hr v (o1 v)) as (_ & _ & K); [apply HO1; auto|].
        destruct (signed_double_ok r (vfilled d true P) Hr (virtual_index d c) (o1 (virtual_index d c)))
          as (_ & _ & K2); [apply HO1; auto|].
        rewrite Q in K. rewrite F1, Hf in K2. rewrite Ev in U. pose proof (usable_pos r Hr). lra. }
      unfold vfilled in Pv. destruct (border_cell d v) eqn:Eb; [discriminate|].
      pose proof (real_in_bounds d v Hv Eb) as Hrv.
      exists (real_index d v). split; auto. rewrite G by auto. cbn [fst]. rewrite Val by auto.
      unfold o. rewrite Pv, virtual_real. rewrite Ev, SV1 by auto. unfold vfilled. rewrite Eb, Pv.
      reflexivity.
    - intros (c & Hc & Hf). destruct (B10 (Nc (ex_intro _ c Hc))) as (_ & (v & Hv & Ev)).
      destruct (virtual_in_bounds d c Hc) as (V1 & _). destruct (Vf c Hc) as (_ & F1).
      destruct (B9 _ V1) as (_ & _ & _ & N & L & U).
      assert (Pv : vfilled d false P v = true).
      { destruct (vfilled d false P v) eqn:Q; auto. exfalso.
        destruct (signed_double_ok r (vfilled d false P) Hr v (o2 v)) as (_ & _ & K); [apply HO2; auto|].
        destruct (signed_double_ok r (vfilled d false P) Hr (virtual_index d c) (o2 (virtual_index d c)))
          as (_ & _ & K2); [apply HO2; auto|].
        rewrite Q in K. rewrite F1, Hf in K2. rewrite Ev in L. pose proof (usable_pos r Hr). lra. }
      unfold vfilled in Pv. destruct (border_cell d v) eqn:Eb; [discriminate|].
      pose proof (real_in_bounds d v Hv Eb) as Hrv.
      exists (real_index d v). split; auto. rewrite G by auto. cbn [fst]. rewrite Val by auto.
      unfold o. rewrite Pv, virtual_real. rewrite Ev, SV2 by auto. unfold vfilled. rewrite Eb, Pv.
      reflexivity.
    - intros Hn Hall. destruct (A10 (Nc (Nc' Hn))) as ((v & Hv & Ev) & _).
      assert (Q : forall u, in_bounds (border_dims d) u = true -> vfilled d true P u = true).
      { intros u Hu. unfold vfilled. destruct (border_cell d u) eqn:Eb; auto.
        apply Hall. apply real_in_bounds; auto. }
      rewrite Ev. unfold signed_double. rewrite Q by auto.
      destruct (o1 v) as [m|] eqn:Eo.
      + exfalso. destruct (A9 _ Hv) as (K & _). destruct (K m Eo) as (_ & p & (Hp & Hne) & _).
        rewrite !Q in Hne by auto. congruence.
      + cbn [distsq64]. destruct Hr as (F & Hg). rewrite scale_inf; auto. apply res_pos; auto.
    - intros Hn Hall. destruct (B10 (Nc (Nc' Hn))) as (_ & (v & Hv & Ev)).
      assert (Q : forall u, in_bounds (border_dims d) u = true -> vfilled d false P u = false).
      { intros u Hu. unfold vfilled. destruct (border_cell d u) eqn:Eb; auto.
        apply Hall. apply real_in_bounds; auto. }
      rewrite Ev. unfold signed_double. rewrite Q by auto.
      destruct (o2 v) as [m|] eqn:Eo.
      + exfalso. destruct (B9 _ Hv) as (K & _). destruct (K m Eo) as (_ & p & (Hp & Hne) & _).
        rewrite !Q in Hne by auto. congruence.
      + cbn [distsq64]. destruct Hr as (F & Hg). rewrite scale_inf; auto. apply res_pos; auto.
  Qed.
End Border.

Section BorderThms.
  Variables (d : dims) (r : binary64) (oob : binary32) (frame : string).
  Variables (is_filled : idx -> res bool) (P : idx -> bool).
  Hypothesis Hs : size_ok (enlarged_dims d).
  Hypothesis Hd0 : 0 <= nx d /\ 0 <= ny d /\ 0 <= nz d.
  Hypothesis Hr : usable_resolution r.
  Hypothesis HP : answers d is_filled P.

  Lemma border_sign :
    exists s x, extract_sdf_grid d r r r is_filled oob frame true = Ok (s, x) /\
      sdf_dims s = d /\ s_res s = r /\ s_frame s = frame /\ s_locked s = false /\
      goob (s_grid s) = oob /\
      forall c, in_bounds d c = true -> exists v, sdf_get s c = (v, true) /\
        is_nan 24 128 v = false /\
        (P c = false -> gt32 v zero32 = true) /\
        (P c = true -> lt32 v zero32 = true).
  Proof.
    destruct (border_facts d r oob frame is_filled P Hs Hd0 Hr HP)
      as (s & mx & mn & E & A1 & A2 & A3 & A4 & A5 & N1 & N2 & (o & A6 & A6f) & _).
    exists s, (mx, mn). repeat (split; [solve [auto]|]).
    intros c Hc. destruct (A6 c Hc) as (B1 & B2 & B3).
    assert (Ho : forall m, o c = Some m -> 1 <= m <= 2147483647) by (intros m Hm; apply B1; auto).
    exists (signed_value (P c) (o c) r). split; auto.
    split; [apply signed_value_sign; auto|].
    split; intros ->; [apply signed_value_pos|apply signed_value_neg]; auto.
  Qed.

  Variables (s : sdf) (mx mn : binary64).
  Hypothesis HE : extract_sdf_grid d r r r is_filled oob frame true = Ok (s, (mx, mn)).

  Lemma border_magnitude c : in_bounds d c = true ->
    exists m, sdf_get s c = (signed_value (P c) m r, true) /\
      (forall z, m = Some z -> 1 <= z <= 2147483647 /\
         exists p, other_or_outside d P c p /\ distsq c p = z) /\
      (forall z, nearest_other_or_outside d P c z -> z <= 6 -> m = Some z).
  Proof.
    intros Hc.
    destruct (border_facts d r oob frame is_filled P Hs Hd0 Hr HP)
      as (s' & mx' & mn' & E & A1 & A2 & A3 & A4 & A5 & N1 & N2 & (o & A6 & A6f) & _).
    rewrite HE in E. injection E as <- <- <-. destruct (A6 c Hc) as (B1 & B2 & B3).
    exists (o c). auto.
  Qed.

  Lemma border_extrema :
    (exists c, in_bounds d c = true /\ P c = false) ->
    (exists c, in_bounds d c = true /\ P c = true) ->
    upper_extremum d (fun c => fst (sdf_get s c)) mx /\
    lower_extremum d (fun c => fst (sdf_get s c)) mn.
  Proof.
    intros Hfree Hfill.
    destruct (border_facts d r oob frame is_filled P Hs Hd0 Hr HP)
      as (s' & mx' & mn' & E & A1 & A2 & A3 & A4 & A5 & N1 & N2 & (o & A6 & A6f) & U1 & L1 & U2 & L2 & _).
    rewrite HE in E. injection E as <- <- <-.
    pose proof (U2 Hfree) as (cu & Hcu & Eu). pose proof (L2 Hfill) as (cl & Hcl & El).
    assert (V : forall c, in_bounds d c = true ->
       is_nan _ _ (fst (sdf_get s c)) = false /\
       (if P c then xr32 (fst (sdf_get s c)) < 0 else 0 < xr32 (fst (sdf_get s c)))%R).
    { intros c Hc. destruct (A6 c Hc) as (B1 & B2 & B3). rewrite B3. cbn [fst].
      apply signed_value_sign; auto. intros m Hm. apply B1; auto. }
    assert (Pmx : (0 < xr32 (b32_of_b64 mx))%R).
    { destruct Hfree as (c & Hc & Hf). pose proof (U1 c Hc Hf) as K. destruct (V c Hc) as (N & S).
      rewrite Hf in S. apply le32_spec in K; auto; [lra|apply to32_xr; auto]. }
    assert (Pmn : (xr32 (b32_of_b64 mn) < 0)%R).
    { destruct Hfill as (c & Hc & Hf). pose proof (L1 c Hc Hf) as K. destruct (V c Hc) as (N & S).
      rewrite Hf in S. apply ge32_spec in K; auto; [lra|apply to32_xr; auto]. }
    split; split; eauto.
    - intros c Hc. destruct (P c) eqn:Q; [|auto]. destruct (V c Hc) as (N & S). rewrite Q in S.
      apply le32_spec; auto; [apply to32_xr; auto|lra].
    - intros c Hc. destruct (P c) eqn:Q; [auto|]. destruct (V c Hc) as (N & S). rewrite Q in S.
      apply ge32_spec; auto; [apply to32_xr; auto|lra].
  Qed.

  Lemma border_planar c p : flat d -> in_bounds d c = true -> other_or_outside d P c p ->
    exists z, sdf_get s c = (signed_value (P c) (Some z) r, true) /\
      1 <= z <= manhattan c p * manhattan c p /\
      exists q, other_or_outside d P c q /\ distsq c q = z.
  Proof.
    intros Hfl Hc Hp.
    destruct (border_facts d r oob frame is_filled P Hs Hd0 Hr HP)
      as (s' & mx' & mn' & E & A1 & A2 & A3 & A4 & A5 & N1 & N2 & (o & A6 & A6f) & _).
    rewrite HE in E. injection E as <- <- <-. destruct (A6 c Hc) as (B1 & B2 & B3).
    destruct (A6f Hfl c p Hc Hp) as (z & Ez & Hz). destruct (B1 z Ez) as (R & q & Hq & Hd).
    exists z. rewrite <- Ez. split; auto. split; [lia|eauto].
  Qed.

  (** A cell just outside can be replaced by one straight out along an axis. *)
  Lemma straight_out c p : in_bounds d c = true -> outside_shell d p ->
    exists q, outside_shell d q /\ manhattan c q * manhattan c q <= distsq c p.
  Proof.
    intros Hc (Ho & Bx & By & Bz). destruct c as [cx cy cz], p as [px py pz].
    apply in_bounds_spec in Hc. cbn [ix iy iz] in *.
    assert (Hin : forall n v, 0 <= v < n -> beyond n v).
    { intros n v Hv. unfold beyond. destruct (1 <? n); lia. }
    pose proof (Z.square_nonneg (cx - px)). pose proof (Z.square_nonneg (cy - py)).
    pose proof (Z.square_nonneg (cz - pz)).
    assert (Sq : forall t, Z.abs t * Z.abs t = t * t) by (intros t; rewrite <- Z.abs_mul, Z.abs_eq; nia).
    assert (K : forall x y z, in_bounds d (I x y z) = false <->
      ~ (0 <= x < nx d /\ 0 <= y < ny d /\ 0 <= z < nz d)).
    { intros x y z. rewrite <- Bool.not_true_iff_false, in_bounds_spec. cbn [ix iy iz]. tauto. }
    rewrite K in Ho. unfold distsq, manhattan, outside_shell. cbn [ix iy iz].
    assert (A : ~ 0 <= px < nx d \/ ~ 0 <= py < ny d \/ ~ 0 <= pz < nz d) by lia.
    destruct A as [A|[A|A]].
    - exists (I px cy cz). cbn [ix iy iz]. rewrite K, !Z.sub_diag, !Z.add_0_r, Sq.
      split; [|lia]. split; [tauto|]. split; auto. split; apply Hin; lia.
    - exists (I cx py cz). cbn [ix iy iz]. rewrite K, !Z.sub_diag, !Z.add_0_r, Z.add_0_l, Sq.
      split; [|lia]. split; [tauto|]. split; [apply Hin; lia|]. split; auto. apply Hin; lia.
    - exists (I cx cy pz). cbn [ix iy iz]. rewrite K, !Z.sub_diag, !Z.add_0_l, Sq.
      split; [|lia]. split; [tauto|]. split; [apply Hin; lia|]. split; auto. apply Hin; lia.
  Qed.

  Lemma border_planar_out c p : flat d -> in_bounds d c = true -> outside_shell d p ->
    exists m, sdf_get s c = (signed_value (P c) (Some m) r, true) /\ 1 <= m <= distsq c p.
  Proof.
    intros Hfl Hc Hp. destruct (straight_out c p Hc Hp) as (q & Hq & Hle).
    destruct (border_planar c q Hfl Hc (or_intror Hq)) as (z & G & B & _). exists z. split; auto. lia.
  Qed.

  (** Monotonicity of the stored magnitude in the cell distance. *)
  Lemma rounded_monotone a b : 1 <= a -> a <= b -> b <= 2147483647 ->
    le32 (rounded_distance (Some a) r) (rounded_distance (Some b) r) = true.
  Proof.
    intros H1 Hab H2. destruct Hr as (Rf & Rg). pose proof (res_pos r Rf Rg) as Rp.
    destruct (scale_finite r Rf Rp a) as (Na & Xa & _); [lia|].
    destruct (scale_finite r Rf Rp b) as (Nb & Xb & _); [lia|].
    cbn [rounded_distance]. apply le32_spec; [apply to32_xr; auto|apply to32_xr; auto|].
    apply to32_le; auto. rewrite Xa, Xb. apply clamp_le. apply rnd_le; try reflexivity.
    rewrite (r_val r Rf) in Rp. apply Rmult_le_compat_r; [lra|].
    apply rnd_le; try reflexivity. apply sqrt_le_1_alt. apply IZR_le. auto.
  Qed.

  (** Cells one or two layers inside are bounded by their distance to the outside. *)
  Lemma border_near c p : in_bounds d c = true -> outside_shell d p -> distsq c p <= 6 ->
    exists m, sdf_get s c = (signed_value (P c) (Some m) r, true) /\ 1 <= m <= distsq c p.
  Proof.
    intros Hc Hp H6. destruct (border_magnitude c Hc) as (m & G & B & X).
    (* the nearest candidate exists because distances are bounded below *)
    assert (K : exists z, nearest_other_or_outside d P c z /\ z <= distsq c p).
    { assert (Hex : forall n : nat, forall q, other_or_outside d P c q -> distsq c q <= Z.of_nat n ->
                 exists z, nearest_other_or_outside d P c z /\ z <= distsq c q).
      { assert (Dec : forall k, (exists q, other_or_outside d P c q /\ distsq c q < k) \/
                         ~ (exists q, other_or_outside d P c q /\ distsq c q < k)).
        { intros k.
          assert (Loc : forall q, other_or_outside d P c q -> In (virtual_index d q) (sweep (border_dims d))).
          { intros q [(Hq & _)|Hq]; apply sweep_in.
            - apply virtual_in_bounds; auto.
            - apply outside_virtual; auto. }
          destruct (existsb (fun v => (distsq c (real_index d v) <? k) &&
                       (negb (in_bounds d (real_index d v)) || negb (Bool.eqb (P (real_index d v)) (P c))))
                     (sweep (border_dims d))) eqn:Ex.
          - left. apply existsb_exists in Ex. destruct Ex as (v & Hv & Hk).
            apply Bool.andb_true_iff in Hk. destruct Hk as (Hk & Ho). apply Z.ltb_lt in Hk.
            apply sweep_in in Hv. exists (real_index d v). split; auto.
            destruct (border_cell d v) eqn:Eb.
            + right. apply real_border_outside; auto.
            + left. split; [apply real_in_bounds; auto|]. rewrite real_in_bounds in Ho by auto.
              cbn [negb orb] in Ho. intros Eq. rewrite Eq in Ho. destruct (P c); discriminate.
          - right. intros (q & Hq & Hk). pose proof (Loc q Hq) as Lq.
            assert (existsb (fun v => (distsq c (real_index d v) <? k) &&
                       (negb (in_bounds d (real_index d v)) || negb (Bool.eqb (P (real_index d v)) (P c))))
                     (sweep (border_dims d)) = true); [|congruence].
            apply existsb_exists. exists (virtual_index d q). split; auto.
            assert (Rq : real_index d (virtual_index d q) = q).
            { destruct Hq as [(Hq & _)|Hq]; [apply virtual_in_bounds in Hq|apply outside_virtual in Hq]; tauto. }
            rewrite Rq. apply Bool.andb_true_iff. split; [apply Z.ltb_lt; auto|].
            apply Bool.orb_true_iff. destruct Hq as [(Hq & Hne)|(Hq & _)].
            + right. destruct (P q), (P c); auto; congruence.
            + left. rewrite Hq. auto. }
        induction n as [|n IH]; intros q Hq Hn.
        - destruct (Dec (distsq c q)) as [(q' & Hq' & Hlt)|Hno].
          + exfalso. unfold distsq in *. 
            pose proof (Z.square_nonneg (ix c - ix q')). pose proof (Z.square_nonneg (iy c - iy q')).
            pose proof (Z.square_nonneg (iz c - iz q')). lia.
          + exists (distsq c q). split; [|lia]. split; eauto. intros p' Hp'.
            destruct (Z_lt_dec (distsq c p') (distsq c q)); [|lia]. exfalso. apply Hno. eauto.
        - destruct (Dec (distsq c q)) as [(q' & Hq' & Hlt)|Hno].
          + destruct (IH q' Hq') as (z & Hz & Hle); [lia|]. exists z. split; auto. lia.
          + exists (distsq c q). split; [|lia]. split; eauto. intros p' Hp'.
            destruct (Z_lt_dec (distsq c p') (distsq c q)); [|lia]. exfalso. apply Hno. eauto. }
      apply (Hex (Z.to_nat (distsq c p))); [right; auto|]. unfold distsq.
      pose proof (Z.square_nonneg (ix c - ix p)). pose proof (Z.square_nonneg (iy c - iy p)).
      pose proof (Z.square_nonneg (iz c - iz p)). lia. }
    destruct K as (z & Hz & Hle). assert (Em : m = Some z) by (apply X; auto; lia).
    subst m. exists z. split; auto. destruct (B z eq_refl). lia.
  Qed.

  (** All filled: the reported maximum is -infinity although a cell on the edge
      of the grid stores -resolution.  Symmetrically when all free. *)
  Lemma border_one_class_filled : 0 < ncells d -> (forall c, in_bounds d c = true -> P c = true) ->
    mx = ninf64.
  Proof.
    intros Hn Hall.
    destruct (border_facts d r oob frame is_filled P Hs Hd0 Hr HP)
      as (s' & mx' & mn' & E & A1 & A2 & A3 & A4 & A5 & N1 & N2 & _ & U1 & L1 & U2 & L2 & X1 & X2).
    rewrite HE in E. injection E as <- <- <-. auto.
  Qed.
  Lemma border_one_class_free : 0 < ncells d -> (forall c, in_bounds d c = true -> P c = false) ->
    mn = inf64.
  Proof.
    intros Hn Hall.
    destruct (border_facts d r oob frame is_filled P Hs Hd0 Hr HP)
      as (s' & mx' & mn' & E & A1 & A2 & A3 & A4 & A5 & N1 & N2 & _ & U1 & L1 & U2 & L2 & X1 & X2).
    rewrite HE in E. injection E as <- <- <-. auto.
  Qed.
End BorderThms.

Lemma nonempty_axes d : 0 < ncells d -> 0 <= nx d -> 0 <= ny d -> 0 <= nz d ->
  0 < nx d /\ 0 < ny d /\ 0 < nz d.
Proof. unfold ncells. intros. repeat split; nia. Qed.

(** A cell of the grid with a border cell at distance one, if some axis is longer
    than one cell. *)
Lemma corner_touches d : 0 < ncells d -> 0 <= nx d -> 0 <= ny d -> 0 <= nz d ->
  1 < nx d \/ 1 < ny d \/ 1 < nz d ->
  in_bounds d (I 0 0 0) = true /\ exists p, outside_shell d p /\ distsq (I 0 0 0) p = 1.
Proof.
  intros Hn H1 H2 H3 Hl. destruct (nonempty_axes d Hn H1 H2 H3) as (A & B & C).
  split; [apply in_bounds_spec; cbn [ix iy iz]; lia|].
  assert (BY : forall n, 0 < n -> beyond n 0).
  { intros n Hp. unfold beyond. destruct (Z.ltb_spec 1 n); lia. }
  assert (BN : forall n, 1 < n -> beyond n (-1)).
  { intros n Hp. unfold beyond. destruct (Z.ltb_spec 1 n); lia. }
  assert (OB : forall x y z, x < 0 \/ y < 0 \/ z < 0 -> in_bounds d (I x y z) = false).
  { intros x y z Hneg. destruct (in_bounds d (I x y z)) eqn:E; auto. apply in_bounds_spec in E.
    cbn [ix iy iz] in E. lia. }
  destruct Hl as [L|[L|L]].
  - exists (I (-1) 0 0). split; [split; [apply OB; lia|]|reflexivity]. cbn [ix iy iz]. auto.
  - exists (I 0 (-1) 0). split; [split; [apply OB; lia|]|reflexivity]. cbn [ix iy iz]. auto.
  - exists (I 0 0 (-1)). split; [split; [apply OB; lia|]|reflexivity]. cbn [ix iy iz]. auto.
Qed.

Lemma border_extrema_wrong d r oob frame is_filled s mx mn :
  size_ok (enlarged_dims d) -> 0 <= nx d -> 0 <= ny d -> 0 <= nz d -> 0 < ncells d ->
  1 < nx d \/ 1 < ny d \/ 1 < nz d -> usable_resolution r ->
  lt32 (b32_of_b64 r) inf32 = true ->
  extract_sdf_grid d r r r is_filled oob frame true = Ok (s, (mx, mn)) ->
  (answers d is_filled (fun _ => true) ->
     mx = ninf64 /\ exists c, in_bounds d c = true /\ gt32 (fst (sdf_get s c)) (b32_of_b64 mx) = true) /\
  (answers d is_filled (fun _ => false) ->
     mn = inf64 /\ exists c, in_bounds d c = true /\ lt32 (fst (sdf_get s c)) (b32_of_b64 mn) = true).
Proof.
  intros Hs H1 H2 H3 Hn Hl Hr Hfin HE.
  destruct (corner_touches d Hn H1 H2 H3 Hl) as (Hc & p & Hp & Hd).
  pose proof Hr as (Rf & Rg). pose proof (res_pos r Rf Rg) as Rp.
  assert (Nr : is_nan 53 1024 r = false) by (destruct r; auto; discriminate).
  destruct (to32_xr r Nr) as (N32 & _).
  apply gt32_spec in Rg; auto. apply lt32_spec in Hfin; auto. rewrite xr_zero32 in Rg.
  split; intros HA.
  - assert (E : mx = ninf64).
    { eapply border_one_class_filled; eauto. }
    split; auto. exists (I 0 0 0). split; auto.
    destruct (border_near d r oob frame is_filled (fun _ => true) Hs (conj H1 (conj H2 H3)) Hr HA s mx mn HE
                (I 0 0 0) p Hc Hp) as (m & G & B); [lia|].
    assert (m = 1) by lia. subst m. rewrite G. cbn [fst signed_value rounded_distance].
    rewrite scale_one by auto. rewrite E. destruct (opp32_xr _ N32) as (NO & XO).
    apply gt32_spec; auto. rewrite XO. change (b32_of_b64 ninf64) with ninf32.
    unfold xr32 in *. cbn [ninf32 inf32 xr] in *. lra.
  - assert (E : mn = inf64).
    { eapply border_one_class_free; eauto. }
    split; auto. exists (I 0 0 0). split; auto.
    destruct (border_near d r oob frame is_filled (fun _ => false) Hs (conj H1 (conj H2 H3)) Hr HA s mx mn HE
                (I 0 0 0) p Hc Hp) as (m & G & B); [lia|].
    assert (m = 1) by lia. subst m. rewrite G. cbn [fst signed_value rounded_distance].
    rewrite scale_one by auto. rewrite E. apply lt32_spec; auto.
Qed.

(** A magnitude below [k] stays within the rounded distance of [k]. *)
Lemma signed_within b r m k : usable_resolution r -> 1 <= m -> m <= k -> k <= 2147483647 ->
  le32 (signed_value b (Some m) r) (rounded_distance (Some k) r) = true /\
  ge32 (signed_value b (Some m) r) (b32_opp (rounded_distance (Some k) r)) = true.
Proof.
  intros Hr B1 B2 B3.
  assert (Hm : le32 (rounded_distance (Some m) r) (rounded_distance (Some k) r) = true)
    by (apply (rounded_monotone r Hr m k); lia).
  assert (Q : forall z, 1 <= z <= 2147483647 ->
     is_nan _ _ (rounded_distance (Some z) r) = false /\ (0 < xr32 (rounded_distance (Some z) r))%R).
  { intros z Hz. apply (signed_value_sign false (Some z) r Hr). intros m' E. injection E as <-. lia. }
  destruct (Q m) as (Nm & Pm); [lia|]. destruct (Q k) as (Np & Pp); [lia|].
  destruct (opp32_xr _ Nm) as (NO & XO). destruct (opp32_xr _ Np) as (NO2 & XO2).
  apply le32_spec in Hm; auto. unfold signed_value. destruct b.
  - split; [apply le32_spec; auto; lra|apply ge32_spec; auto; lra].
  - split; [apply le32_spec; auto; lra|apply ge32_spec; auto; lra].
Qed.

(** The distance to a cell just outside fits an int32. *)
Lemma outside_fits d c p : size_ok (enlarged_dims d) -> in_bounds d c = true -> outside_shell d p ->
  distsq c p <= 2147483647.
Proof.
  intros Hs Hc Hp. rewrite <- (distsq_virtual d). rewrite <- border_dims_eq in Hs.
  apply (distsq_bound (border_dims d) Hs).
  - apply virtual_in_bounds; auto.
  - apply outside_virtual in Hp. tauto.
Qed.

(** The bound by the distance to the outside: the outer two layers of any grid,
    and every cell of a planar grid. *)
Lemma border_bound d r oob frame is_filled P s x c p :
  size_ok (enlarged_dims d) -> 0 <= nx d -> 0 <= ny d -> 0 <= nz d -> usable_resolution r ->
  answers d is_filled P ->
  extract_sdf_grid d r r r is_filled oob frame true = Ok (s, x) ->
  in_bounds d c = true -> outside_shell d p -> flat d \/ distsq c p <= 6 ->
  exists v, sdf_get s c = (v, true) /\
    le32 v (rounded_distance (Some (distsq c p)) r) = true /\
    ge32 v (b32_opp (rounded_distance (Some (distsq c p)) r)) = true.
Proof.
  intros Hs H1 H2 H3 Hr HA HE Hc Hp H6. destruct x as (mx & mn).
  assert (K : exists m, sdf_get s c = (signed_value (P c) (Some m) r, true) /\ 1 <= m <= distsq c p).
  { destruct H6; [eapply border_planar_out|eapply border_near]; eauto. }
  destruct K as (m & G & B). exists (signed_value (P c) (Some m) r). split; auto.
  apply signed_within; auto; try lia. apply (outside_fits d); auto.
Qed.

(** Collision maps. *)
Lemma cm_answers m unknown :
  answers (cm_dims m)
    (fun i => let (c, ok) := cm_get m i in
              if ok then Ok (occupied unknown (c_occ c)) else Throw "index out of grid bounds")
    (fun i => occupied unknown (c_occ (fst (cm_get m i)))).
Proof.
  intros i Hi. unfold cm_get. rewrite get_eq. unfold cm_dims in Hi. rewrite Hi. reflexivity.
Qed.

Lemma occupied_spec u o : occupied u o = true <-> counts_as_filled u o.
Proof.
  unfold occupied, counts_as_filled. rewrite Bool.orb_true_iff, Bool.andb_true_iff. tauto.
Qed.

Lemma occupied_nan u o : is_nan 24 128 o = true -> occupied u o = false.
Proof.
  intros H. destruct o; try discriminate. unfold occupied, gt32, eq32. cbn. rewrite Bool.andb_false_r.
  reflexivity.
Qed.

Lemma cm_sign m r oob unknown border :
  size_ok (enlarged_dims (cm_dims m)) ->
  0 <= nx (cm_dims m) -> 0 <= ny (cm_dims m) -> 0 <= nz (cm_dims m) ->
  usable_resolution r ->
  exists s x, cm_extract_sdf m r r r oob unknown border = Ok (s, x) /\
    sdf_dims s = cm_dims m /\ s_frame s = cm_frame m /\
    forall i c, in_bounds (cm_dims m) i = true -> cm_get m i = (c, true) ->
      exists v, sdf_get s i = (v, true) /\
        (counts_as_filled unknown (c_occ c) -> lt32 v zero32 = true) /\
        (~ counts_as_filled unknown (c_occ c) -> gt32 v zero32 = true).
Proof.
  intros Hs H1 H2 H3 Hr.
  set (P := fun i => occupied unknown (c_occ (fst (cm_get m i)))).
  assert (K : exists s x, cm_extract_sdf m r r r oob unknown border = Ok (s, x) /\
     sdf_dims s = cm_dims m /\ s_res s = r /\ s_frame s = cm_frame m /\ s_locked s = false /\
      goob (s_grid s) = oob /\
      forall c, in_bounds (cm_dims m) c = true -> exists v, sdf_get s c = (v, true) /\
        is_nan 24 128 v = false /\
        (P c = false -> gt32 v zero32 = true) /\
        (P c = true -> lt32 v zero32 = true)).
  { unfold cm_extract_sdf. destruct border.
    - apply border_sign; auto. apply cm_answers.
    - unfold extract_sdf_grid. rewrite ne64_refl by auto. cbn [orb negb].
      apply extract_sign; auto; [|apply cm_answers].
      destruct Hs as (S1 & S2 & S3 & S4). unfold enlarged_dims, enlarged in *. cbn [nx ny nz] in *.
      unfold size_ok. destruct (1 <? nx (cm_dims m)), (1 <? ny (cm_dims m)), (1 <? nz (cm_dims m)); nia. }
  destruct K as (s & x & E & A1 & A2 & A3 & A4 & A5 & A6). exists s, x.
  split; auto. split; auto. split; auto.
  intros i c Hi Hg. destruct (A6 i Hi) as (v & G & N & F1 & F2). exists v. split; auto.
  assert (EP : P i = occupied unknown (c_occ c)) by (unfold P; rewrite Hg; auto).
  rewrite <- occupied_spec, <- EP. split; auto. intros Hne. apply F1. destruct (P i); congruence.
Qed.

Lemma nonuniform_throws d cx cy cz is_filled oob frame border :
  (eq64 cx cy && eq64 cx cz = false ->
   exists msg, extract_sdf_grid d cx cy cz is_filled oob frame border = Throw msg).
Proof.
  intros H. unfold extract_sdf_grid, ne64. apply Bool.andb_false_iff in H.
  destruct H as [H|H]; rewrite H; cbn [negb orb]; rewrite ?Bool.orb_true_r; eauto.
Qed.

Lemma planar_sdf_example :
  let d := D 3 4 1 in
  let f := fun i : idx => Ok (ix i =? 0) in
  size_ok d /\ size_ok (enlarged_dims d) /\ flat d /\ usable_resolution quarter64 /\
  answers d f (fun i => ix i =? 0) /\
  other_class d (fun i => ix i =? 0) (I 2 3 0) (I 0 0 0) /\ outside_shell d (I 2 4 0) /\
  match extract_sdf d quarter64 f zero32 "map",
        extract_sdf_grid d quarter64 quarter64 quarter64 f zero32 "map" true with
  | Ok (s, _), Ok (t, _) => eq32 (fst (sdf_get s (I 2 3 0))) half32 = true /\
                            eq32 (fst (sdf_get t (I 2 3 0))) (b32_of_b64 quarter64) = true
  | _, _ => False
  end.
Proof.
  cbn zeta. split; [vm_compute; intuition discriminate|]. split; [vm_compute; intuition discriminate|].
  split; [right; right; vm_compute; discriminate|]. split; [vm_compute; auto|].
  split; [intros i _; reflexivity|]. split; [split; [reflexivity|discriminate]|].
  split; [split; [reflexivity|vm_compute; intuition discriminate]|]. vm_compute; auto.
Qed.
