(** Fields of tagged maps in terms of BuildDistanceField's results, and the
    extrema reported with the field of free space and named objects. *)
From Coq Require Import Reals Lra.
From Flocq Require Import Core.Core IEEE754.Binary IEEE754.Bits.
From Verif Require Import Base BaseFacts Floats FloatFacts FloatFacts2 Grid GridFacts
  DistSpec DistModel DistProofs DistThms CollisionMap CollisionMapProofs SdfGen SdfSpec SdfGenProofs
  SdfThms SdfBorderThms SdfExact Arith SdfQuery SdfField Extrema ExtremaSpec TaggedMap TaggedSpec TaggedProofs.
Open Scope Z_scope.

Lemma object_answers m objects unknown P :
  (forall i, P i = true <-> object_filled m objects unknown i) ->
  answers (tm_dims m)
    (fun i => let (c, ok) := tm_get m i in
              if ok then Ok (selected objects (t_obj c) && occupied unknown (t_occ c))
              else Throw "index out of grid bounds") P.
Proof.
  intros HP i Hi. rewrite (tm_answers m objects unknown i Hi). f_equal.
  destruct (P i) eqn:EP.
  - apply HP in EP. apply tfilled_spec; auto.
  - destruct (tfilled m objects unknown i) eqn:EF; auto. apply tfilled_spec, HP in EF. congruence.
Qed.

Lemma object_values g m oob objects unknown s x P :
  tmap_ok m -> size_ok (tm_dims m) -> usable_resolution (g_cx g) ->
  g_cy g = g_cx g -> g_cz g = g_cx g ->
  (forall i, P i = true <-> object_filled m objects unknown i) ->
  tm_extract_sdf g m oob objects unknown false = Ok (s, x) ->
  exists to_filled to_free,
    build_distance_field (tm_dims m) (cells_of (tm_dims m) P) = Ok to_filled /\
    build_distance_field (tm_dims m) (cells_of (tm_dims m) (fun i => negb (P i))) = Ok to_free /\
    forall c, in_bounds (tm_dims m) c = true ->
      sdf_get s c =
        (signed_value (P c) (cell_distsq (if P c then to_free else to_filled) c) (g_cx g), true).
Proof.
  intros Hok Hs Hr Ey Ez HP E. unfold tm_extract_sdf in E. rewrite Ey, Ez in E.
  unfold extract_sdf_grid in E. rewrite ne64_refl in E by auto. cbn [orb negb] in E.
  exact (extract_values _ _ _ _ _ P s x Hs Hr (object_answers m objects unknown P HP) E).
Qed.

Lemma object_values_border g m oob objects unknown s x P :
  tmap_ok m -> size_ok (enlarged_dims (tm_dims m)) -> usable_resolution (g_cx g) ->
  g_cy g = g_cx g -> g_cz g = g_cx g ->
  (forall i, P i = true <-> object_filled m objects unknown i) ->
  tm_extract_sdf g m oob objects unknown true = Ok (s, x) ->
  let d := tm_dims m in let e := enlarged_dims d in
  exists to_filled to_free,
    build_distance_field e (cells_of e (with_layer d P)) = Ok to_filled /\
    build_distance_field e (cells_of e (with_layer d (fun i => negb (P i)))) = Ok to_free /\
    forall c, in_bounds d c = true ->
      sdf_get s c =
        (signed_value (P c) (cell_distsq (if P c then to_free else to_filled) (shift_in d c)) (g_cx g), true).
Proof.
  intros ((W1 & W2 & W3 & _) & _) Hs Hr Ey Ez HP E d e. unfold tm_extract_sdf in E. rewrite Ey, Ez in E.
  exact (border_values _ _ _ _ _ P s x Hs (conj W1 (conj W2 W3)) Hr (object_answers m objects unknown P HP) E).
Qed.

Section Both.
  Variables (g : geometry) (m : tmap) (oob : binary32) (unknown : bool).
  Variables (P Q : idx -> bool).
  Hypothesis Hok : tmap_ok m.
  Hypothesis Hs : size_ok (tm_dims m).
  Hypothesis Hr : usable_resolution (g_cx g).
  Hypothesis Ey : g_cy g = g_cx g.
  Hypothesis Ez : g_cz g = g_cx g.
  Hypothesis HP : forall i, P i = true <-> counts_as_filled unknown (tocc m i).
  Hypothesis HQ : forall i, Q i = true <-> counts_as_filled unknown (tocc m i) /\ 0 < tobj m i.
  Variables (s : sdf) (mx mn : binary64).
  Hypothesis HE : tm_free_and_named g m oob unknown = Ok (s, (mx, mn)).

  Lemma free_answers : answers (tm_dims m)
    (fun i => Ok (occupied unknown (t_occ (fst (tm_get m i))))) P.
  Proof.
    intros i Hi. f_equal. fold (tocc m i). destruct (P i) eqn:E.
    - apply HP in E. apply occupied_spec; auto.
    - destruct (occupied unknown (tocc m i)) eqn:F; auto. apply occupied_spec, HP in F. congruence.
  Qed.
  Lemma named_answers : answers (tm_dims m)
    (fun i => Ok ((0 <? t_obj (fst (tm_get m i))) && occupied unknown (t_occ (fst (tm_get m i))))) Q.
  Proof.
    intros i Hi. f_equal. fold (tocc m i). fold (tobj m i). destruct (Q i) eqn:E.
    - apply HQ in E. destruct E as (E & F). apply occupied_spec in E. rewrite E. apply andb_true_iff. lia.
    - destruct (occupied unknown (tocc m i)) eqn:F; [|apply andb_false_r].
      destruct (Z.ltb_spec 0 (tobj m i)); auto. apply occupied_spec in F.
      assert (Q i = true) by (apply HQ; auto). congruence.
  Qed.

  (** The two fields, and which one a cell's value comes from. *)
  Lemma both_parts : exists fs fmx fmn ns nmx nmn,
    extract_sdf (tm_dims m) (g_cx g) (fun i => Ok (occupied unknown (t_occ (fst (tm_get m i))))) oob (tm_frame m)
      = Ok (fs, (fmx, fmn)) /\
    extract_sdf (tm_dims m) (g_cx g)
      (fun i => Ok ((0 <? t_obj (fst (tm_get m i))) && occupied unknown (t_occ (fst (tm_get m i))))) oob (tm_frame m)
      = Ok (ns, (nmx, nmn)) /\ mx = fmx /\ mn = nmn /\
    forall i, in_bounds (tm_dims m) i = true ->
      (P i = false -> sdf_get s i = sdf_get fs i /\ gt32 (fst (sdf_get s i)) zero32 = true) /\
      (Q i = true -> sdf_get s i = sdf_get ns i /\ lt32 (fst (sdf_get s i)) zero32 = true) /\
      (P i = true -> Q i = false -> sdf_get s i = (zero32, true)).
  Proof.
    destruct (free_and_named g m oob unknown Hok Hs Hr Ey Ez)
      as (s' & x' & fs & fx & ns & nx_ & E & Ef & En & _ & _ & _ & _ & _ & V).
    rewrite HE in E. injection E as <- <-.
    unfold tm_free_and_named in HE. rewrite Ef, En in HE. cbn [bind] in HE. injection HE as _ Hx Hn.
    unfold tm_extract_cells in Ef, En. rewrite Ey, Ez in Ef, En.
    unfold extract_sdf_grid in Ef, En. rewrite ne64_refl in Ef, En by auto. cbn [orb negb] in Ef, En.
    destruct fx as (fmx & fmn). destruct nx_ as (nmx & nmn). cbn [fst snd] in *.
    exists fs, fmx, fmn, ns, nmx, nmn. split; [exact Ef|]. split; [exact En|].
    split; [auto|]. split; [auto|].
    intros i Hi. destruct (V i Hi) as (V1 & V2 & V3). split; [|split].
    - intros H. apply V1. intros C. apply HP in C. congruence.
    - intros H. apply HQ in H. apply V2; tauto.
    - intros H1 H2. apply HP in H1. apply V3; auto.
      destruct (Z.ltb_spec 0 (tobj m i)).
      + assert (Q i = true) by (apply HQ; auto). congruence.
      + destruct Hok as (_ & _ & _ & C). pose proof (C i) as C2. unfold tcell_ok in C2.
        unfold tobj in *. unfold u32 in *. lia.
  Qed.

  Lemma both_values : exists to_filled to_rest,
    build_distance_field (tm_dims m) (cells_of (tm_dims m) P) = Ok to_filled /\
    build_distance_field (tm_dims m) (cells_of (tm_dims m) (fun i => negb (Q i))) = Ok to_rest /\
    forall c, in_bounds (tm_dims m) c = true ->
      sdf_get s c =
        (if negb (P c) then signed_value false (cell_distsq to_filled c) (g_cx g)
         else if Q c then signed_value true (cell_distsq to_rest c) (g_cx g) else zero32, true).
  Proof.
    destruct both_parts as (fs & fmx & fmn & ns & nmx & nmn & Ef & En & _ & _ & V).
    destruct (extract_values _ _ _ _ _ P fs _ Hs Hr free_answers Ef) as (ff & fr0 & B1 & _ & V1).
    destruct (extract_values _ _ _ _ _ Q ns _ Hs Hr named_answers En) as (ff0 & fr & _ & B2 & V2).
    exists ff, fr. split; [exact B1|]. split; [exact B2|]. intros c Hc.
    destruct (V c Hc) as (U1 & U2 & U3). specialize (V1 c Hc). specialize (V2 c Hc).
    destruct (P c) eqn:EP; cbn [negb].
    - destruct (Q c) eqn:EQ; [|auto]. destruct (U2 eq_refl) as (W & _). rewrite W, V2. reflexivity.
    - destruct (U1 eq_refl) as (W & _). rewrite W, V1. reflexivity.
  Qed.

  Lemma some_cell c : in_bounds (tm_dims m) c = true -> 0 < ncells (tm_dims m).
  Proof.
    intros H. apply in_bounds_spec in H. unfold ncells.
    apply Z.mul_pos_pos; [apply Z.mul_pos_pos|]; lia.
  Qed.

  Lemma pos_nan v : gt32 v zero32 = true -> is_nan 24 128 v = false.
  Proof. unfold gt32. destruct v; auto. Qed.
  Lemma neg_nan v : lt32 v zero32 = true -> is_nan 24 128 v = false.
  Proof. unfold lt32. destruct v; auto. Qed.

  Lemma sign_split c : in_bounds (tm_dims m) c = true ->
    (P c = false /\ gt32 (fst (sdf_get s c)) zero32 = true) \/
    (Q c = true /\ lt32 (fst (sdf_get s c)) zero32 = true) \/
    (P c = true /\ Q c = false /\ sdf_get s c = (zero32, true)).
  Proof.
    intros Hc. destruct both_parts as (fs & fmx & fmn & ns & nmx & nmn & _ & _ & _ & _ & V).
    destruct (V c Hc) as (V1 & V2 & V3). destruct (P c).
    - destruct (Q c).
      + right; left. split; auto. apply V2; auto.
      + right; right. auto.
    - left. split; auto. apply V1; auto.
  Qed.

  Lemma upper_right : (exists c, in_bounds (tm_dims m) c = true /\ P c = false) ->
    upper_extremum (tm_dims m) (fun c => fst (sdf_get s c)) mx.
  Proof.
    intros (c0 & Hc0 & P0). pose proof sign_split as SS. pose proof (some_cell c0 Hc0) as SC.
    pose proof free_answers as FA. pose proof named_answers as NA.
    destruct both_parts as (fs & fmx & fmn & ns & nmx & nmn & Ef & _ & -> & _ & V).
    destruct (extract_extrema _ _ _ _ _ P Hs Hr FA fs fmx fmn Ef SC)
      as ((U1 & cu & Hcu & Eu) & _).
    destruct (extract_sign _ (g_cx g) oob (tm_frame m) _ P Hs Hr FA)
      as (fs' & x' & E' & _ & _ & _ & _ & _ & S). rewrite Ef in E'. injection E' as <- _.
    assert (F0 : gt32 (fst (sdf_get fs c0)) zero32 = true).
    { destruct (S c0 Hc0) as (v & G & _ & G2 & _). rewrite G. auto. }
    pose proof (U1 c0 Hc0) as L0.
    assert (Nm : is_nan 24 128 (b32_of_b64 fmx) = false).
    { unfold le32, lt32, eq32 in L0. destruct (b32_of_b64 fmx); auto.
      destruct (fst (sdf_get fs c0)); discriminate. }
    assert (Pm : (0 < xr32 (b32_of_b64 fmx))%R).
    { pose proof (pos_nan _ F0). apply gt32_spec in F0; auto. apply le32_spec in L0; auto.
      change (xr32 zero32) with 0%R in F0. lra. }
    split.
    - intros c Hc. destruct (SS c Hc) as [(Pc & Hg)|[(Qc & Hl)|(Pc & Qc & Hz)]].
      + destruct (V c Hc) as (V1 & _). destruct (V1 Pc) as (W & _). rewrite W. auto.
      + pose proof (neg_nan _ Hl). apply le32_spec; auto. apply lt32_spec in Hl; auto.
        change (xr32 zero32) with 0%R in Hl. lra.
      + rewrite Hz. cbn [fst]. apply le32_spec; auto. change (xr32 zero32) with 0%R. lra.
    - exists cu. split; auto. rewrite <- Eu. destruct (V cu Hcu) as (V1 & _).
      assert (Pu : P cu = false).
      { destruct (P cu) eqn:EP; auto. exfalso. destruct (S cu Hcu) as (v & G & N & _ & G3).
        rewrite G in Eu. cbn [fst] in Eu. specialize (G3 EP). apply lt32_spec in G3; auto.
        rewrite Eu in G3. change (xr32 zero32) with 0%R in G3. lra. }
      destruct (V1 Pu) as (W & _). rewrite W. reflexivity.
  Qed.

  Lemma lower_right : (exists c, in_bounds (tm_dims m) c = true /\ Q c = true) ->
    lower_extremum (tm_dims m) (fun c => fst (sdf_get s c)) mn.
  Proof.
    intros (c0 & Hc0 & P0). pose proof sign_split as SS. pose proof (some_cell c0 Hc0) as SC.
    pose proof free_answers as FA. pose proof named_answers as NA.
    destruct both_parts as (fs & fmx & fmn & ns & nmx & nmn & _ & En & _ & -> & V).
    destruct (extract_extrema _ _ _ _ _ Q Hs Hr NA ns nmx nmn En SC)
      as (_ & (U1 & cu & Hcu & Eu)).
    destruct (extract_sign _ (g_cx g) oob (tm_frame m) _ Q Hs Hr NA)
      as (ns' & x' & E' & _ & _ & _ & _ & _ & S). rewrite En in E'. injection E' as <- _.
    assert (F0 : lt32 (fst (sdf_get ns c0)) zero32 = true).
    { destruct (S c0 Hc0) as (v & G & _ & _ & G2). rewrite G. auto. }
    pose proof (U1 c0 Hc0) as L0.
    assert (Nm : is_nan 24 128 (b32_of_b64 nmn) = false).
    { unfold ge32, gt32, eq32 in L0. destruct (b32_of_b64 nmn); auto.
      destruct (fst (sdf_get ns c0)); discriminate. }
    assert (Pm : (xr32 (b32_of_b64 nmn) < 0)%R).
    { pose proof (neg_nan _ F0). apply lt32_spec in F0; auto. apply ge32_spec in L0; auto.
      change (xr32 zero32) with 0%R in F0. lra. }
    split.
    - intros c Hc. destruct (SS c Hc) as [(Pc & Hg)|[(Qc & Hl)|(Pc & Qc & Hz)]].
      + pose proof (pos_nan _ Hg). apply ge32_spec; auto. apply gt32_spec in Hg; auto.
        change (xr32 zero32) with 0%R in Hg. lra.
      + destruct (V c Hc) as (_ & V1 & _). destruct (V1 Qc) as (W & _). rewrite W. auto.
      + rewrite Hz. cbn [fst]. apply ge32_spec; auto. change (xr32 zero32) with 0%R. lra.
    - exists cu. split; auto. rewrite <- Eu. destruct (V cu Hcu) as (_ & V1 & _).
      assert (Pu : Q cu = true).
      { destruct (Q cu) eqn:EP; auto. exfalso. destruct (S cu Hcu) as (v & G & N & G3 & _).
        rewrite G in Eu. cbn [fst] in Eu. specialize (G3 EP). apply gt32_spec in G3; auto.
        rewrite Eu in G3. change (xr32 zero32) with 0%R in G3. lra. }
      destruct (V1 Pu) as (W & _). rewrite W. reflexivity.
  Qed.

  (** Without a named object the reported minimum is +infinity, without free space
      the reported maximum -infinity, although other filled cells store zero. *)
  Lemma one_class_extremum d r o frame f R s' a b (v : bool) :
    size_ok d -> usable_resolution r -> answers d f R -> 0 < ncells d ->
    extract_sdf d r f o frame = Ok (s', (a, b)) ->
    (forall c, in_bounds d c = true -> R c = v) ->
    a = (if v then ninf64 else inf64) /\ b = (if v then ninf64 else inf64).
  Proof.
    intros Hs1 Hr1 HA Hn E Hv.
    destruct (extract_facts d r o frame f R Hs1 Hr1 HA)
      as (s2 & mx' & mn' & E2 & _ & _ & _ & _ & _ & _ & _ & _ & k & A9 & A10 & _).
    rewrite E in E2. injection E2 as <- <- <-.
    destruct (A10 Hn) as ((cx & Hcx & Ex) & (cn & Hcn & En)).
    assert (K : forall c, in_bounds d c = true -> k c = None).
    { intros c Hc. destruct (A9 c Hc) as (B1 & _). destruct (k c) as [z|]; auto.
      destruct (B1 z eq_refl) as (_ & p & (Hp & Hne) & _). rewrite !Hv in Hne by auto. congruence. }
    rewrite Ex, En. rewrite !K by auto. unfold signed_double. rewrite !Hv by auto.
    cbn [distsq64]. rewrite scale_inf by (try apply Hr1; apply usable_pos; auto).
    destruct v; split; reflexivity.
  Qed.

  Lemma upper_wrong c : (forall i, in_bounds (tm_dims m) i = true -> P i = true) ->
    in_bounds (tm_dims m) c = true -> Q c = false ->
    mx = ninf64 /\ gt32 (fst (sdf_get s c)) (b32_of_b64 mx) = true.
  Proof.
    intros Ha Hc Hq. pose proof (some_cell c Hc) as SC.
    pose proof free_answers as FA. pose proof named_answers as NA.
    destruct both_parts as (fs & fmx & fmn & ns & nmx & nmn & Ef & _ & -> & _ & V).
    destruct (one_class_extremum _ _ _ _ _ P fs fmx fmn true Hs Hr FA SC Ef Ha) as (-> & _).
    split; auto. destruct (V c Hc) as (_ & _ & V3). rewrite (V3 (Ha c Hc) Hq). reflexivity.
  Qed.
  Lemma lower_wrong c : (forall i, in_bounds (tm_dims m) i = true -> Q i = false) ->
    in_bounds (tm_dims m) c = true -> P c = true ->
    mn = inf64 /\ lt32 (fst (sdf_get s c)) (b32_of_b64 mn) = true.
  Proof.
    intros Ha Hc Hq. pose proof (some_cell c Hc) as SC.
    pose proof free_answers as FA. pose proof named_answers as NA.
    destruct both_parts as (fs & fmx & fmn & ns & nmx & nmn & _ & En & _ & -> & V).
    destruct (one_class_extremum _ _ _ _ _ Q ns nmx nmn false Hs Hr NA SC En Ha) as (_ & ->).
    split; auto. destruct (V c Hc) as (_ & _ & V3). rewrite (V3 Hq (Ha c Hc)). reflexivity.
  Qed.
End Both.

(** A row of four cells: free, an obstacle without a name, object 2, free. *)
Definition mixed : tmap :=
  TM (G (D 4 1 1) [TC zero32 0 0 0; TC one32 0 0 0; TC one32 0 2 0; TC zero32 0 0 0] (TC zero32 0 0 0))
     0 0 "f" false None.
Definition unnamed : tmap :=
  TM (G (D 2 1 1) [TC one32 0 0 0; TC one32 0 0 0] (TC zero32 0 0 0)) 0 0 "f" false None.
Definition row_geo (n : Z) : geometry :=
  Geo quarter64 quarter64 quarter64 (SdfField.ieee_pose quarter64) (D n 1 1).

Definition reads (s : sdf) (l : list binary32) : bool :=
  forallb (fun p => eq32 (fst (sdf_get s (fst p))) (snd p)) (combine (sweep (sdf_dims s)) l).

Lemma mixed_ok : tmap_ok mixed.
Proof.
  split; [unfold wf_grid; vm_compute; intuition congruence|]. split; [reflexivity|].
  split; [vm_compute; intuition congruence|]. intros i. unfold tm_get, get.
  destruct (in_bounds (gdims (tm_grid mixed)) i) eqn:E; [|vm_compute; intuition congruence].
  destruct i as [a b c]. apply in_bounds_spec in E. cbn in E.
  assert (b = 0) by lia. assert (c = 0) by lia. subst b c.
  assert (a = 0 \/ a = 1 \/ a = 2 \/ a = 3) as [->|[->|[->| ->]]] by lia; vm_compute; intuition congruence.
Qed.
Lemma unnamed_ok : tmap_ok unnamed.
Proof.
  split; [unfold wf_grid; vm_compute; intuition congruence|]. split; [reflexivity|].
  split; [vm_compute; intuition congruence|]. intros i. unfold tm_get, get.
  destruct (in_bounds (gdims (tm_grid unnamed)) i) eqn:E; [|vm_compute; intuition congruence].
  destruct i as [a b c]. apply in_bounds_spec in E. cbn in E.
  assert (b = 0) by lia. assert (c = 0) by lia. subst b c.
  assert (a = 0 \/ a = 1) as [->| ->] by lia; vm_compute; intuition congruence.
Qed.

Lemma mixed_case :
  tmap_ok mixed /\ tmap_ok unnamed /\ size_ok (tm_dims mixed) /\ usable_resolution (g_cx (row_geo 4)) /\
  match tm_free_and_named (row_geo 4) mixed inf32 false with
  | Ok (s, (mx, mn)) =>
      reads s [b32_of_b64 quarter64; zero32; b32_opp (b32_of_b64 quarter64);
               b32_of_b64 quarter64] = true /\
      eq64 mx quarter64 = true /\ eq64 mn (opp64 quarter64) = true
  | _ => False
  end /\
  match tm_free_and_named (row_geo 2) unnamed inf32 false with
  | Ok (s, (mx, mn)) =>
      reads s [zero32; zero32] = true /\ eq64 mx ninf64 = true /\ eq64 mn inf64 = true
  | _ => False
  end.
Proof.
  split; [exact mixed_ok|]. split; [exact unnamed_ok|].
  split; [vm_compute; repeat split; discriminate|]. split; [exact quarter_usable|].
  split; vm_compute; auto.
Qed.
