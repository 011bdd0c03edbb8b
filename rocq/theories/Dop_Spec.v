(** Specification vocabulary for dilution of precision. *)
From Coq Require Import Reals ZArith List Bool.
From Verif Require Import Base RBase Dop_Model.
Import ListNotations.
Open Scope R_scope.

(** [X] is the inverse of [M]. *)
Definition inverse (M X : mat4) : Prop :=
  forall i j, (i < 4)%nat -> (j < 4)%nat -> sum4 (fun k => M i k * X k j) = if Nat.eqb i j then 1 else 0.
(** Contract of numpy's solver in exact arithmetic. *)
Definition solver (solve : mat4 -> option mat4) : Prop := forall M,
  match solve M with Some X => inverse M X | None => forall X, ~ inverse M X end.
(** A satellite counts if it stands at or above the minimum elevation. *)
Definition in_view (min_elevation : R) (s : sight) : Prop := radians min_elevation <= s_el s.
(** The measurement direction of a satellite: its unit vector in the local frame, and 1 for the clock. *)
Definition direction (s : sight) : vec4 := fun k =>
  match k with 0%nat => cos (s_el s) * cos (s_az s) | 1%nat => cos (s_el s) * sin (s_az s) | 2%nat => sin (s_el s) | _ => 1 end.
(** The normal matrix of a list of satellites. *)
Definition normal (l : list sight) : mat4 := fun i j => fold_right (fun s a => direction s i * direction s j + a) 0 l.
(** No satellite is at the station itself. *)
Definition apart (l : list sight) : Prop := forall s, In s l -> s_r s <> 0.
(** [l] are exactly the satellites of [all] that are in view. *)
Inductive seen_of (min_elevation : R) : list sight -> list sight -> Prop :=
| seen_nil : seen_of min_elevation [] []
| seen_yes s all l : in_view min_elevation s -> seen_of min_elevation all l -> seen_of min_elevation (s :: all) (s :: l)
| seen_no s all l : ~ in_view min_elevation s -> seen_of min_elevation all l -> seen_of min_elevation (s :: all) l.
(** Which variances a method adds up. *)
Definition part (m : dop_method) (X : mat4) : R :=
  match m with
  | GDOP => X 0%nat 0%nat + X 1%nat 1%nat + X 2%nat 2%nat + X 3%nat 3%nat
  | PDOP => X 0%nat 0%nat + X 1%nat 1%nat + X 2%nat 2%nat
  | HDOP => X 0%nat 0%nat + X 1%nat 1%nat
  | VDOP => X 2%nat 2%nat
  | TDOP => X 3%nat 3%nat
  | Invalid => 0
  end.
(** Number of components of a method and the sum of squares of these components in a direction. *)
Definition components (m : dop_method) : R := match m with GDOP => 4 | PDOP => 3 | HDOP => 2 | VDOP => 1 | TDOP => 1 | Invalid => 0 end.
Definition weight (m : dop_method) : R := match m with GDOP => 2 | _ => 1 end.
(** The sky turned about the vertical. *)
Definition turned (a : R) (s : sight) : sight := mk_sight (s_el s) (s_az s + a) (s_r s).
