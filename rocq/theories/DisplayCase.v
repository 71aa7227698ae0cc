(** Small drawings. *)
From Coq Require Import Sorted Lia Reals Lra.
From Flocq Require Import Core.Core IEEE754.Binary IEEE754.Bits.
From Verif Require Import Base Floats FloatFacts FloatFacts2 Grid GridFacts DistSpec SdfGen SdfSpec SdfThms CollisionMap
  TaggedMap TaggedSpec TaggedProofs SdfQuery SdfField QueryWitness Surfaces SurfaceSpec Arith Display DisplaySpec DisplayProofs DisplaySdf.
Local Open Scope Z_scope.

(** Every object opaque, object 0 hidden. *)
Definition plain_color (id : Z) (alpha : binary32) : color :=
  RGBA zero32 zero32 zero32 (if id =? 0 then zero32 else alpha).
Definition red := RGBA one32 zero32 zero32 one32.
Definition green := RGBA zero32 one32 zero32 one32.

(** Seven cells in a row, the middle five filled with object 3. *)
Definition row_map : tmap :=
  fold_left (fun m x => fst (tm_set m (I x 0 0) (tcell2 one32 3))) [1; 2; 3; 4; 5]
    (tm_new "f" (D 7 1 1) (tcell2 zero32 0) (tcell2 zero32 0)).
Definition row_geo : geometry := Geo one64 one64 one64 (ieee_pose one64) (D 7 1 1).

Lemma row_drawable : drawable row_map row_geo.
Proof.
  split; [|split; [|split; [|split; reflexivity]]].
  - assert (G : forall l m, tmap_ok m -> tmap_ok (fold_left (fun m x => fst (tm_set m (I x 0 0) (tcell2 one32 3))) l m)).
    { induction l as [|x l IH]; intros m Hm; cbn [fold_left]; auto. apply IH. unfold tm_set.
      destruct (in_bounds (tm_dims m) (I x 0 0)); auto. cbn [fst].
      apply (tmap_ok_put m (I x 0 0) (tcell2 one32 3)); auto. repeat split; cbn; lia. }
    apply G. apply tnew_ok; cbn; try lia; repeat split; cbn; lia.
  - vm_compute. repeat split; discriminate.
  - split; [reflexivity|].
    assert (E : B2R 53 1024 (g_cx row_geo) = 1%R).
    { destruct (of_Z_exact 1) as (F1 & V1); [lia|].
      replace (g_cx row_geo) with (b64_of_Z 1); auto. }
    rewrite E. change 1%R with (bpow radix2 0). split; apply bpow_le; lia.
Qed.

Lemma row_contour :
  exists k, tm_contour (fun i => i) plain_color row_geo row_map one32 [] = Ok k /\
    mk_points k = [I 1 0 0; I 5 0 0] /\
  exists ks, tm_export_unique (fun i => i) plain_color row_map one32 [] = Ok ks /\
    map (fun k => (mk_ns k, mk_points k)) ks = [(object_ns 3, [I 1 0 0; I 2 0 0; I 3 0 0; I 4 0 0; I 5 0 0])].
Proof.
  eexists. split; [vm_compute; reflexivity|]. split; [reflexivity|].
  eexists. split; [vm_compute; reflexivity|]. reflexivity.
Qed.

(** Three cells: filled, free, free. *)
Definition row_plain : cmap :=
  fst (cm_set (cm_new "f" (D 3 1 1) (CC zero32 0) (CC zero32 0)) (I 0 0 0) (CC one32 0)).
Lemma row_plain_drawn :
  mk_points (cm_export (fun i => i) row_plain red green no_color) = [I 0 0 0; I 1 0 0; I 2 0 0] /\
  mk_colors (cm_export (fun i => i) row_plain red green no_color) = [red; green; green] /\
  mk_points (cm_export_surfaces (fun i => i) row_plain red green no_color) = [I 0 0 0; I 1 0 0].
Proof. vm_compute. auto. Qed.

(** A field of an empty map: infinite everywhere, and the green channel is NaN. *)
Lemma nan_shade : exists s x,
  extract_sdf (D 2 1 1) one64 (fun _ => Ok false) zero32 "f" = Ok (s, x) /\
  map (fun c => is_nan 24 128 (c_g c)) (mk_colors (sdf_export (fun i => i) (fun a => a) s one32)) = [true; true].
Proof.
  assert (G : match extract_sdf (D 2 1 1) one64 (fun _ => Ok false) zero32 "f" with
    | Ok (s, _) => map (fun c => is_nan 24 128 (c_g c))
                     (mk_colors (sdf_export (fun i => i) (fun a => a) s one32)) = [true; true]
    | _ => False end) by (vm_compute; reflexivity).
  destruct (extract_sdf (D 2 1 1) one64 (fun _ => Ok false) zero32 "f") as [[s x]|e|e]; [|destruct G|destruct G].
  exists s, x. auto.
Qed.

(** Two cells, one filled. *)
Lemma shade_case : exists s x,
  extract_sdf (D 2 1 1) one64 (fun i => Ok (ix i =? 0)) zero32 "f" = Ok (s, x) /\
  map (fun i => is_finite 24 128 (fst (sdf_get s i))) (sweep (sdf_dims s)) = [true; true] /\
  map (fun c => (gt32 (c_r c) zero32, gt32 (c_g c) zero32, gt32 (c_b c) zero32))
    (mk_colors (sdf_export (fun i => i) (fun a => a) s one32)) = [(true, false, false); (false, true, false)] /\
  sdf_export_collision (fun i => i) s = [I 0 0 0].
Proof.
  assert (G : match extract_sdf (D 2 1 1) one64 (fun i => Ok (ix i =? 0)) zero32 "f" with
    | Ok (s, _) =>
       map (fun i => is_finite 24 128 (fst (sdf_get s i))) (sweep (sdf_dims s)) = [true; true] /\
       map (fun c => (gt32 (c_r c) zero32, gt32 (c_g c) zero32, gt32 (c_b c) zero32))
         (mk_colors (sdf_export (fun i => i) (fun a => a) s one32)) = [(true, false, false); (false, true, false)] /\
       sdf_export_collision (fun i => i) s = [I 0 0 0]
    | _ => False end) by (vm_compute; auto).
  destruct (extract_sdf (D 2 1 1) one64 (fun i => Ok (ix i =? 0)) zero32 "f") as [[s x]|e|e]; [|destruct G|destruct G].
  exists s, x. auto.
Qed.
