From Verif Require Import Base BaseFacts Floats Grid GridFacts DistSpec TopoSpec CCModel CCProofs SdfGen SdfSpec SdfThms
  Arith SdfQuery SdfField QueryWitness Extrema ExtremaSpec TaggedMap TaggedSpec TaggedProofs.

Definition case_geo : geometry := Geo one64 one64 one64 (ieee_pose one64) (D 8 1 1).
Definition case_ops : list tm_op :=
  [TSet (I 0 0 0) (tcell2 one32 0); TSet (I 7 0 0) (tcell2 one32 5); TGetRef (I 3 0 0);
   TWriteRef 0 (tcell2 one32 3); TSet (I 4 0 0) (tcell2 one32 3); TUpdateSeg one64 false; TUpdateCC].

Definition case_segs : list Z := [0; 1; 1; 2; 2; 3; 3; 0].
Definition case_comps : list Z := [1; 2; 2; 3; 3; 4; 4; 5].

Lemma tagged_case :
  geometry_ok (D 8 1 1) case_geo /\ Forall top_ok case_ops /\ trefs_not_kept 0 [] case_ops /\
  match tm_run case_geo (tm_new "f" (D 8 1 1) (tcell2 zero32 0) (tcell2 zero32 0)) case_ops with
  | Ok (m, _) => map t_seg (gdata (tm_grid m)) = case_segs /\ map t_comp (gdata (tm_grid m)) = case_comps /\
                 tm_segments_valid m = Ok true /\ tm_components_valid m = true /\
                 tm_object_ids m = [3; 5]
  | _ => False
  end.
Proof.
  split; [|split; [|split]].
  - split; [vm_compute; repeat split; discriminate|].
    split; [split; vm_compute; reflexivity|]. split; [reflexivity|]. split; [reflexivity|].
    split; [reflexivity|]. intros [a b c] H. apply in_bounds_spec in H. cbn [ix iy iz nx ny nz] in H.
    assert (Hb : b = 0) by lia. assert (Hc : c = 0) by lia. subst b c.
    assert (Ha : a = 0 \/ a = 1 \/ a = 2 \/ a = 3 \/ a = 4 \/ a = 5 \/ a = 6 \/ a = 7) by lia.
    repeat (destruct Ha as [Ha|Ha]; [subst a; vm_compute; auto|]). subst a; vm_compute; auto.
  - unfold case_ops. repeat constructor; cbn; unfold u32; try lia.
  - cbn. auto.
  - vm_compute. auto 10.
Qed.
