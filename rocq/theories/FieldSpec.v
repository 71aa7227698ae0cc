(** Vocabulary for comparing the distance fields of two maps. *)
From Verif Require Import Base Grid.

(** The same obstacle cells, in any order and with any repetitions. *)
Definition same_cells (pts pts' : list idx) : Prop := forall p, In p pts <-> In p pts'.

(** The cell opposite along x in a grid of [n] cells along x. *)
Definition mirrored_x (n : Z) (c : idx) : idx := I (n - 1 - ix c) (iy c) (iz c).

(** A cell moved one step along x, as a grid with one more layer on each side along
    x numbers it. *)
Definition moved_x (c : idx) : idx := I (ix c + 1) (iy c) (iz c).
