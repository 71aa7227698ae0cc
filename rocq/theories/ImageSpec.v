(** Vocabulary of the claims about the image node: pixels, distances between
    pixels, and the length of the shortest way along rows, columns and
    diagonals. *)
From Coq Require Import Reals Lra.
From Verif Require Import Base Floats.
Local Open Scope Z_scope.

Definition inside (h w : Z) (p : Z * Z) : Prop := 0 <= fst p < h /\ 0 <= snd p < w.
Definition is_filled (pixel : Z -> Z -> Z) (p : Z * Z) : Prop := pixel (fst p) (snd p) <> 0.
Definition is_empty (pixel : Z -> Z -> Z) (p : Z * Z) : Prop := pixel (fst p) (snd p) = 0.

(** Squared distance and distance, in pixels. *)
Definition d2 (p q : Z * Z) : Z := (fst q - fst p) * (fst q - fst p) + (snd q - snd p) * (snd q - snd p).
Definition dist (p q : Z * Z) : R := sqrt (IZR (d2 p q)).

(** Length of the shortest chain of horizontal, vertical and diagonal steps. *)
Definition chain (p q : Z * Z) : R :=
  (IZR (Z.max (Z.abs (fst q - fst p)) (Z.abs (snd q - snd p))) +
   (sqrt 2 - 1) * IZR (Z.min (Z.abs (fst q - fst p)) (Z.abs (snd q - snd p))))%R.

(** Images for which the arithmetic on offsets is exact. *)
Definition image_ok (h w : Z) : Prop := 0 <= h /\ 0 <= w /\ h * h + w * w <= 2 ^ 53.
