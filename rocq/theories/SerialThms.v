(** The class-by-class consequences, and a concrete codec. *)
From Coq Require Import Ascii.
From Verif Require Import Base BaseFacts Floats Grid CollisionMap TaggedMap Serial SerialSpec
  SerialProofs.

(** ** A concrete transform codec: sixteen doubles copied byte for byte. *)
Definition quad (A : Type) : Type := (A * A * A * A)%type.
Definition put_quad {A} (put : A -> bytes) (q : quad A) : bytes :=
  let '(a, b, c, d) := q in put a ++ put b ++ put c ++ put d.
Definition get_quad {A} (get : parser A) : parser (quad A) :=
  read a as get in read b as get in read c as get in read d as get in pret (a, b, c, d).
Definition iso := quad (quad binary64).
Definition put_iso : iso -> bytes := put_quad (put_quad put_f64).
Definition get_iso : parser iso := get_quad (get_quad get_f64).

Lemma gb_quad {A} (put : A -> bytes) get :
  (forall a, gives_back get a (put a)) -> forall q, gives_back (get_quad get) q (put_quad put q).
Proof.
  intros H [[[a b] c] d]. unfold get_quad, put_quad.
  eapply gives_back_bind; [apply H|]. eapply gives_back_bind; [apply H|].
  eapply gives_back_bind; [apply H|]. rewrite <- (app_nil_r (put d)).
  eapply gives_back_bind; [apply H|]. apply gives_back_pret.
Qed.
Lemma ps_quad {A} (get : parser A) :
  reads_what_it_passes get -> reads_what_it_passes (get_quad get).
Proof.
  intros H. unfold get_quad.
  repeat first [assumption | apply passes_pret | apply passes_bind; [|intros ?]].
Qed.
Lemma iso_codec : transform_codec put_iso get_iso.
Proof.
  split.
  - intros t. apply gb_quad. intros q. apply gb_quad. apply gb_f64.
  - apply ps_quad, ps_quad, ps_f64.
Qed.

(** ** Headers *)
Lemma sdf_headers T (put_t : T -> bytes) get_t : let c := sdf_class put_t get_t in
  is_header (fc_packed c) /\ is_header (fc_raw c) /\ text (fc_packed c) <> text (fc_raw c).
Proof. repeat split; intros H; discriminate H. Qed.
Lemma cm_headers T (put_t : T -> bytes) get_t : let c := cm_class put_t get_t in
  is_header (fc_packed c) /\ is_header (fc_raw c) /\ text (fc_packed c) <> text (fc_raw c).
Proof. repeat split; intros H; discriminate H. Qed.
Lemma tm_headers T (put_t : T -> bytes) get_t : let c := tm_class put_t get_t in
  is_header (fc_packed c) /\ is_header (fc_raw c) /\ text (fc_packed c) <> text (fc_raw c).
Proof. repeat split; intros H; discriminate H. Qed.

(** No file of one class starts with a header of another. *)
Definition clash {S S'} (c : file_class S) (c' : file_class S') : bool :=
  bytes_eqb (text (fc_packed c)) (text (fc_packed c')) ||
  bytes_eqb (text (fc_packed c)) (text (fc_raw c')) ||
  bytes_eqb (text (fc_raw c)) (text (fc_packed c')) ||
  bytes_eqb (text (fc_raw c)) (text (fc_raw c')).

Lemma two_headers h h' (rest : bytes) : is_header h -> is_header h' ->
  starts_with h' (text h ++ rest) -> text h = text h'.
Proof.
  intros [H _] [H' _] [rest' E].
  apply (f_equal (firstn 4)) in E. rewrite !firstn_app, H, H', Nat.sub_diag, !firstn_O, !app_nil_r in E.
  rewrite (firstn_all2 (text h)), (firstn_all2 (text h')) in E by lia. exact E.
Qed.

Section Cross.
  Context {S S' : Type} (c : file_class S) (c' : file_class S').
  Hypothesis h1 : is_header (fc_packed c).
  Hypothesis h2 : is_header (fc_raw c).
  Hypothesis h1' : is_header (fc_packed c').
  Hypothesis h2' : is_header (fc_raw c').
  Hypothesis apart : clash c c' = false.

  Lemma cross_class compress decompress s packed b :
    file_bytes compress c s packed = Ok b -> is_throw (load_bytes decompress c' b) = true.
  Proof.
    intros E. unfold clash in apart.
    apply orb_false_iff in apart as [apart A4]. apply orb_false_iff in apart as [apart A3].
    apply orb_false_iff in apart as [A1 A2].
    apply (load_needs_header compress); [exact h1'|exact h2'|]. right.
    unfold file_bytes in E. destruct (fc_serialize c s nil) as [[r n]|?|?];
      [|discriminate E|discriminate E].
    cbn [bind fst] in E. injection E as E. subst b.
    destruct packed; split; intros H; eapply two_headers in H; try assumption;
      apply bytes_eqb_eq in H; congruence.
  Qed.
End Cross.

(** ** Failed writes and unchecked contents *)
Lemma save_unwritable compress {S} (c : file_class S) ok s path packed d :
  round_trips ok (fc_serialize c) (fc_deserialize c) -> ok s -> d_writable d path = false ->
  save_to_file compress c s path packed d = Ok d.
Proof.
  intros R Hs Hw. destruct (R s nil nil Hs) as (b & E & _).
  unfold save_to_file, file_bytes. rewrite E. cbn [bind]. rewrite Hw. reflexivity.
Qed.

(** One cell in each direction, no data. *)
Definition hollow (t : iso) : cm_state iso :=
  CmState (Members true t t nil zero64 zero64 zero64 zero64 zero64 zero64 zero64 zero64 zero64
             1 1 1 1 1 (CC zero32 0) (CC zero32 0)) 0 "" false.
Lemma hollow_ok t : cm_state_ok (hollow t).
Proof.
  repeat split; cbn; try constructor; try lia; unfold is_i64, is_u32; cbn; try lia.
Qed.

Lemma hollow_loads compress decompress t : exists b,
  file_bytes compress (cm_class put_iso get_iso) (hollow t) false = Ok b /\
  load_bytes decompress (cm_class put_iso get_iso) b = Ok (hollow t).
Proof.
  destruct (cm_round_trips iso put_iso get_iso iso_codec (hollow t) nil nil (hollow_ok t))
    as (b & E1 & E2).
  unfold file_bytes. cbn [fc_serialize cm_class]. rewrite E1. cbn [bind fst app].
  eexists. split; [reflexivity|].
  destruct (cm_headers iso put_iso get_iso) as (H1 & H2 & H3).
  rewrite (load_raw compress decompress (cm_class put_iso get_iso) H2 H3).
  cbn [fc_deserialize cm_class]. cbn [app length] in E2. rewrite app_nil_r in E2.
  rewrite E2. reflexivity.
Qed.

(** A map with four cells, a NaN with payload, negative sizes, a frame. *)
Definition id_iso : iso :=
  let z := zero64 in let o := b64_of_Z 1 in
  ((o, z, z, z), (z, o, z, z), (z, z, o, z), (z, z, z, o)).
Definition odd_nan : binary32 := B754_nan 24 128 true 123 eq_refl.
Definition small_base {A} (a b c d : A) : base iso A :=
  Members true id_iso id_iso [a; b; c; d] (b64_of_Z 1) (b64_of_Z 1) (b64_of_Z 1)
    (b64_of_Z 1) (b64_of_Z 1) (b64_of_Z 1) (b64_of_Z 2) (b64_of_Z 2) (b64_of_Z 1)
    2 1 2 2 1 a d.
Definition small_sdf : sdf_state iso :=
  SdfState (small_base zero32 one32 odd_nan half32) "world" true.
Definition small_cm : cm_state iso :=
  CmState (small_base (CC zero32 1) (CC one32 2) (CC half32 3) (CC odd_nan 4294967295))
    3 "world" true.
Definition small_tm : tm_state iso :=
  TmState (small_base (TC zero32 1 0 7) (TC one32 2 5 8) (TC half32 3 6 9) (TC odd_nan 4 1 0))
    3 2 "world" true (Some false).

Lemma small_ok : sdf_state_ok small_sdf /\ cm_state_ok small_cm /\ tm_state_ok small_tm.
Proof.
  repeat split; cbn; try discriminate; repeat constructor;
    unfold is_i64, is_u32; cbn; lia.
Qed.
