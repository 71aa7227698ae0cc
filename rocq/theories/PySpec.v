(** Vocabulary for arrays that come from and go to Python. *)
From Verif Require Import Base Grid Python.

(** Every index within the shape names an item. *)
Definition whole {T} (a : ndarray T) : Prop :=
  forall ix, Forall2 (fun i n => 0 <= i < n) ix (shape a) -> exists v, item a ix = Some v.

(** An environment array [y, x, z] as the 3D helpers take it. *)
Definition env_3d (env : ndarray Z) (d : dims) : Prop := whole env /\ shape env = [ny d; nx d; nz d].

(** An environment array [y, x] as the 2D helpers take it. *)
Definition env_2d (env : ndarray Z) (w h : Z) : Prop := whole env /\ shape env = [h; w].

(** The item at [y, x, z] or [y, x] marks a cell: it is 1. *)
Definition marked_3d (env : ndarray Z) (i : idx) : bool :=
  match item env [iy i; ix i; iz i] with Some v => v =? 1 | None => false end.
Definition marked_2d (env : ndarray Z) (i : idx) : bool :=
  match item env [iy i; ix i] with Some v => v =? 1 | None => false end.
