(** Concrete builders: a scene is the list of occupied cells, a message replaces it. *)
From Coq Require Import Lia Reals Lra.
From Flocq Require Import Core.Core IEEE754.Binary.
From Verif Require Import Base Floats Grid DistSpec SdfGen SdfSpec QueryWitness Builder BuilderSpec BuilderProofs.
Local Open Scope Z_scope.

Definition hits (s : list idx) (i : idx) : bool := existsb (idx_eqb i) s.
Definition small_run := run (fun (_ m : list idx) => m) [] hits (fun i => i) (D 2 1 1).
Definition small_builder := new_builder (scene := list idx) [] "world" one64 zero32.

Lemma inf_does_not_fit : ~ fits_uint8 inf32.
Proof. intros (F & _). discriminate F. Qed.
Lemma zero_fits : fits_uint8 zero32.
Proof. split; [reflexivity|]. cbn [zero32 B2R]. change 0%R with (IZR 0). rewrite Ztrunc_IZR. lia. Qed.

(** UpdateSDF with the value the node in the repository passes. *)
Lemma infinity_undefined : 
  snd (small_run (new_builder [] "world" one64 inf32) [UpdateSdf 3 (fun _ => Some [I 0 0 0])]) =
  [GotSdf (UB "float does not fit uint8_t")].
Proof. vm_compute. reflexivity. Qed.

(** First an obstacle arrives; then the service stops answering and the update
    returns a field without obstacles, which is also cached. *)
Lemma unanswered_case :
  match small_run small_builder
          [ReceiveScene [I 0 0 0]; UpdateSdf 0 (fun _ => None); UpdateSdf 3 (fun _ => None)] with
  | (b, [Received (Ok _); GotSdf (Ok f1); GotSdf (Ok f2)]) =>
      map (fun i => lt32 (fst (sdf_get f1 i)) zero32) (sweep (D 2 1 1)) = [true; false] /\
      map (fun i => lt32 (fst (sdf_get f2 i)) zero32) (sweep (D 2 1 1)) = [false; false] /\
      is_ok (cached_sdf b) = true /\ is_throw (cached_map b) = true
  | _ => False
  end.
Proof. vm_compute. repeat split. Qed.

(** No scene was ever received, yet "use cached" builds a field. *)
Lemma never_received_case :
  match small_run small_builder [UpdateMap 3 (fun _ => None); UpdateSdf 0 (fun _ => None)] with
  | (b, [GotMap (Ok g); GotSdf (Ok f)]) => gdata g = [0; 0]
  | _ => False
  end.
Proof. vm_compute. reflexivity. Qed.

Lemma small_ok : size_ok (D 2 1 1) /\ usable_resolution one64.
Proof. split; [unfold size_ok; cbn; lia|]. split; reflexivity. Qed.
