(** Specification vocabulary for whole analyses: what the reduced and gridded
    results may depend on. *)
From Coq Require Import String ZArith QArith List Bool.
From Verif Require Import Base Coverage_Model Coverage_Spec Latency_Model Latency_Spec.
Import ListNotations.
Open Scope Z_scope.

(** Two sets of observations cover the same time at every point. *)
Definition same_coverage (rows rows' : list obs) : Prop :=
  forall p t, covered (obs_intervals p rows) t <-> covered (obs_intervals p rows') t.

(** The access and revisit columns of a list of intervals in order. *)
Fixpoint gap_column (prev : option Z) (iv : list (Z * Z)) : list (Z * option Z) :=
  match iv with
  | [] => []
  | i :: r => (snd i - fst i, match prev with None => None | Some e => Some (fst i - e) end)
              :: gap_column (Some (snd i)) r
  end.

(** The labels of the cells that contain a row are positions in the reduced table. *)
Definition labelled {G R} (contains : G -> R -> bool) (rows : list R) (cells : list (cell G)) : Prop :=
  forall c, In c cells -> in_cell contains c rows <> [] -> 0 <= c_label c < Z.of_nat (length rows).

(** No satellite has two downlink opportunities that start at the same instant. *)
Definition distinct_starts (downs : list downlink) : Prop :=
  forall d d', In d downs -> In d' downs -> d_sat d = d_sat d' -> d_start d = d_start d' -> d = d'.
