(** What it means for a collision map's components to be right. *)
From Verif Require Import Base Floats Grid TopoSpec CollisionMap.

Definition occupancy_at (m : cmap) (i : idx) : binary32 := c_occ (fst (cm_get m i)).
Definition component_at (m : cmap) (i : idx) : Z := c_comp (fst (cm_get m i)).

(** Two cells are of the same kind: both occupied (strictly above 0.5) or both not. *)
Definition same_kind (m : cmap) (a b : idx) : bool :=
  Bool.eqb (gt32 (occupancy_at m a) half32) (gt32 (occupancy_at m b) half32).

(** The stored components are the face-connected regions of one kind, numbered
    1..[n] in sweep order. *)
Definition components_right (m : cmap) (n : Z) : Prop :=
  regions_numbered (cm_dims m) (fun _ => true) (same_kind m) (component_at m) n /\
  numbered_in_sweep_order (cm_dims m) (fun _ => true) (component_at m).

(** Maps a program can hold: a data vector of the right size, 32-bit labels and
    fewer than 2^32 cells. *)
Definition cell_ok (c : ccell) : Prop := 0 <= c_comp c < 4294967296.
Definition map_ok (m : cmap) : Prop :=
  wf_grid (cm_grid m) /\ ncells (cm_dims m) < 4294967296 /\
  cell_ok (goob (cm_grid m)) /\ (forall i, cell_ok (fst (cm_get m i))).

(** Only labels may differ: same size, same occupancy everywhere, same
    out-of-bounds value and frame. *)
Definition same_but_labels (m m' : cmap) : Prop :=
  cm_dims m' = cm_dims m /\ cm_frame m' = cm_frame m /\
  goob (cm_grid m') = goob (cm_grid m) /\
  forall i, occupancy_at m' i = occupancy_at m i.

(** Histories in which references obtained from the map are not used any more
    once components are (re)computed; [live] holds the usable references. *)
Fixpoint refs_not_kept (count : nat) (live : list nat) (ops : list cm_op) : Prop :=
  match ops with
  | [] => True
  | SetCell _ _ :: ops' => refs_not_kept count live ops'
  | GetRef _ :: ops' => refs_not_kept (S count) (count :: live) ops'
  | WriteRef k _ :: ops' => In k live /\ refs_not_kept count live ops'
  | UpdateCC :: ops' | ExtractCC :: ops' => refs_not_kept count [] ops'
  end.

(** Values a program can write: 32-bit labels. *)
Definition op_ok (o : cm_op) : Prop :=
  match o with
  | SetCell _ v | WriteRef _ v => cell_ok v
  | _ => True
  end.
