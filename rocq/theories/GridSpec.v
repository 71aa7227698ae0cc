(** Specification of a map from indices to values, used to state what a grid
    does without mentioning its layout. *)
From Verif Require Import Base Grid.

(** Value of index [i] after a list of writes (oldest first), starting from [v0]. *)
Fixpoint last_write {A} (writes : list (idx * A)) (i : idx) (v0 : A) : A :=
  match writes with
  | [] => v0
  | (j, v) :: ws => last_write ws i (if idx_eqb j i then v else v0)
  end.

(** Apply the writes through the API. *)
Definition apply_writes {A} (g : grid A) (writes : list (idx * A)) : grid A :=
  fold_left (fun g w => fst (set g (fst w) (snd w))) writes g.
