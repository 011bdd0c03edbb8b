(** Specification vocabulary for altitude and azimuth columns. *)
From Coq Require Import Reals ZArith List Bool Sorting.Permutation.
From Verif Require Import Base RBase Tle_Model Geom_Model Instr_Model Poly_Model Track_Model Altaz_Model.
Import ListNotations.

(** A column that was asked for has the value [v], and one that was not asked for is missing. *)
Definition column {X} (asked : bool) (c : option X) (v : X) : Prop := c = if asked then Some v else None.
