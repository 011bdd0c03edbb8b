(** Specification vocabulary for the orbit schemas, independent of the model's helpers. *)
From Coq Require Import Reals ZArith List.
From Verif Require Import Base Orbit_Model.
Import ListNotations.
Open Scope R_scope.

(** Two angles in degrees denote the same direction. *)
Definition same_degrees (x y : R) : Prop := exists k : Z, x = y + 360 * IZR k.
(** Two angles in radians denote the same direction. *)
Definition same_radians (x y : R) : Prop := exists k : Z, x = y + 2 * PI * IZR k.

(** What a history of field assignments ([inl]) and conversions ([inr]) should answer:
    every conversion converts the fields assigned last. *)
Fixpoint current_answers {F T L} (conv : F -> pyres T) (now : F) (h : list (F + L)) : list (pyres T) :=
  match h with
  | [] => []
  | inl f :: r => current_answers conv f r
  | inr _ :: r => conv now :: current_answers conv now r
  end.

(** Histories as actions on the modelled object. *)
Definition as_action {F} (x : F + option bool) : @obj_action F :=
  match x with inl f => SetFields f | inr lz => ToTle lz end.
(** No conversion in the history may use a cached value. *)
Definition never_lazy {F} (rc : bool) (x : F + option bool) : Prop :=
  match x with inl _ => True | inr (Some b) => b = false | inr None => rc = false end.

