(** Inverse tangent of two arguments, shared by the geometric models. *)
From Coq Require Import Reals.
From Verif Require Import RBase.
Open Scope R_scope.

(** np.arctan2 (used at satellite.py:342-344, 358, 362-365, 375, instrument.py:364, utils.py:455-500,
    ro_coverage.py and track.py).  Signed zeros are not modelled: arctan2(0, 0) is 0. *)
Definition arctan2 (y x : R) : R :=
  if Rltb 0 x then atan (y / x)
  else if Rltb x 0 then (if Rleb 0 y then atan (y / x) + PI else atan (y / x) - PI)
  else if Rltb 0 y then PI / 2 else if Rltb y 0 then - (PI / 2) else 0.
