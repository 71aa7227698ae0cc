(** What reads of a hashed map should return, from the history of writes. *)
From Coq Require Import Permutation.
From Verif Require Import Base Floats Grid CollisionMap Display Hashed.

(** A write: of one cell or of a whole chunk. *)
Inductive write (point : Type) := WCell (p : point) (v : ccell) | WChunk (p : point) (v : ccell).
Arguments WCell {point} _ _. Arguments WChunk {point} _ _.

Section Spec.
  Context {point : Type} (cell_at : point -> idx) (d : dims).

  Definition same_cell (p q : point) : Prop := cell_at p = cell_at q.

  (** Two locations share a chunk when their cells lie in the same block. *)
  Definition same_chunk (p q : point) : Prop :=
    ix (cell_at p) / nx d = ix (cell_at q) / nx d /\
    iy (cell_at p) / ny d = iy (cell_at q) / ny d /\
    iz (cell_at p) / nz d = iz (cell_at q) / nz d.

  (** The locations a write covers, its value, and the chunks it creates. *)
  Definition covers (w : write point) (q : point) : Prop :=
    match w with WCell p _ => same_cell p q | WChunk p _ => same_chunk p q end.
  Definition touches (w : write point) (q : point) : Prop :=
    match w with WCell p _ | WChunk p _ => same_chunk p q end.
  Definition written (w : write point) : ccell := match w with WCell _ v | WChunk _ v => v end.

  (** v is the value of the last write that covers q. *)
  Definition last_covering (ws : list (write point)) (q : point) (v : ccell) : Prop :=
    exists pre w post, ws = pre ++ w :: post /\ covers w q /\ written w = v /\
      forall w', In w' post -> ~ covers w' q.

  (** Applying writes in order. *)
  Definition apply_write (h : hmap) (w : write point) : hmap :=
    match w with
    | WCell p v => fst (h_set_cell cell_at h p v)
    | WChunk p v => fst (h_set_chunk cell_at h p v)
    end.
  Definition apply_writes (h : hmap) (ws : list (write point)) : hmap := fold_left apply_write ws h.
End Spec.

(** Chunks have at least one cell along each axis. *)
Definition chunk_ok (d : dims) : Prop := 0 < nx d /\ 0 < ny d /\ 0 < nz d.

(** An order lists the same chunks. *)
Definition chunk_order (order : chunks -> chunks) : Prop := forall l, Permutation l (order l).
