(** Concrete arrays for the Python helpers. *)
From Coq Require Import Lia.
From Verif Require Import Base Floats Grid DistSpec CollisionMap SdfGen SdfSpec Arith SdfQuery SdfField QueryWitness
  SdfBorderThms Python PySpec.
Local Open Scope Z_scope.

(** [[0, 1, 0], [0, 0, 1]]: two rows (y), three columns (x). *)
Definition env_small : ndarray Z := ND [2; 3] [3; 1] [0; 1; 0; 0; 0; 1].
(** The same with one layer, and a 2 x 3 x 2 one. *)
Definition env_block : ndarray Z := ND [2; 3; 2] [6; 2; 1] [0; 1; 0; 0; 1; 0; 0; 0; 0; 0; 0; 1].

Lemma env_small_ok : env_2d env_small 3 2.
Proof.
  split; [|reflexivity]. intros l H. cbn [env_small shape] in H.
  inversion H as [|i n l1 s1 A H1]; subst. inversion H1 as [|j m l2 s2 B H2]; subst. inversion H2; subst.
  assert (Ci : i = 0 \/ i = 1) by lia. assert (Cj : j = 0 \/ j = 1 \/ j = 2) by lia.
  destruct Ci as [->| ->], Cj as [->|[->| ->]]; eexists; reflexivity.
Qed.

Lemma env_block_ok : env_3d env_block (D 3 2 2).
Proof.
  split; [|reflexivity]. intros l H. cbn [env_block shape] in H.
  inversion H as [|i n l1 s1 A H1]; subst. inversion H1 as [|j m l2 s2 B H2]; subst.
  inversion H2 as [|k o l3 s3 C H3]; subst. inversion H3; subst.
  assert (Ci : i = 0 \/ i = 1) by lia. assert (Cj : j = 0 \/ j = 1 \/ j = 2) by lia.
  assert (Ck : k = 0 \/ k = 1) by lia.
  destruct Ci as [->| ->], Cj as [->|[->| ->]], Ck as [->| ->]; eexists; reflexivity.
Qed.

Lemma small_size : size_ok (D 3 2 1).
Proof. unfold size_ok; cbn; lia. Qed.

Lemma one64_usable : usable_resolution one64.
Proof. split; reflexivity. Qed.

Lemma beyond_axis {T} (b : ndarray T) : shape b = [3; 2] -> item b [0; 2] = None.
Proof.
  intros E. unfold item. rewrite E. destruct (strides b) as [|k [|l m]]; reflexivity.
Qed.

(** A square field where reading with the axes swapped gives a wrong value
    rather than an exception. *)
Definition env_square : ndarray Z := ND [2; 2] [2; 1] [0; 1; 0; 0].

Definition square_case : Prop :=
  match compute_sdf_2d env_square one64 "world" with
  | Ok s =>
      match sdf_to_np s, sdf_array_2d s with
      | Ok b, Ok a =>
          sdf_dims s = D 2 2 1 /\
          option_map (fun v => lt32 v zero32) (item a [0; 1]) = Some true /\
          option_map (fun v => gt64 v zero64) (item b [0; 1]) = Some true
      | _, _ => False
      end
  | _ => False
  end.

Lemma square_case_ok : square_case.
Proof. vm_compute. repeat split; reflexivity. Qed.

(** Two rows of four items with one marked: distances 1, 2, 3 and the diagonal
    ones. *)
Definition env_row : ndarray Z := ND [2; 4] [4; 1] [1; 0; 0; 0; 0; 0; 0; 0].

Lemma env_row_ok : env_2d env_row 4 2.
Proof.
  split; [|reflexivity]. intros l H. cbn [env_row shape] in H.
  inversion H as [|i n l1 s1 A H1]; subst. inversion H1 as [|j m l2 s2 B H2]; subst. inversion H2; subst.
  assert (Ci : i = 0 \/ i = 1) by lia. assert (Cj : j = 0 \/ j = 1 \/ j = 2 \/ j = 3) by lia.
  destruct Ci as [->| ->], Cj as [->|[->|[->| ->]]]; eexists; reflexivity.
Qed.

Definition row_case (p : pose ieee) : Prop :=
  match compute_sdf_and_gradient_2d env_row one64 p "world" with
  | Ok (a, _) => forallb (fun e : list Z * binary32 => match item a (fst e) with Some v => eq32 v (snd e) | None => false end)
      [([0; 0], b32_opp (rounded_distance (Some 1) one64)); ([0; 3], rounded_distance (Some 9) one64);
       ([1; 1], rounded_distance (Some 2) one64); ([1; 3], rounded_distance (Some 10) one64)] = true
  | _ => False
  end.

Lemma row_case_ok : row_case (ieee_pose one64).
Proof. vm_compute. reflexivity. Qed.
