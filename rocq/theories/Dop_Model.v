(** Model of dilution of precision, src/tatc/analysis/dop.py.
    Numbers are exact reals, so "nearly singular" is singular.  NaN is [None]. *)
From Coq Require Import Reals ZArith List Bool.
From Verif Require Import Base RBase Geom_Model.
Import ListNotations.
Open Scope R_scope.

(** DopMethod, dop.py:22-31; [Invalid] is any other value. *)
Inductive dop_method := GDOP | PDOP | HDOP | VDOP | TDOP | Invalid.
(** Elevation and azimuth (radians) and range (m) of one satellite at one time, dop.py:74-77. *)
Record sight := mk_sight { s_el : R; s_az : R; s_r : R }.
(** Arrays of four numbers and four by four matrices, by index (entries 0 to 3 are read). dop.py:95-105. *)
Definition vec4 := nat -> R.
(** See above. dop.py:105. *)
Definition mat4 := nat -> nat -> R.
(** Sum over the four indices. The matrix products of dop.py:105. *)
Definition sum4 (f : nat -> R) : R := f 0%nat + f 1%nat + f 2%nat + f 3%nat.
(** el >= np.deg2rad(min_elevation), dop.py:80 and 93. *)
Definition visible (min_elevation : R) (s : sight) : bool := Rleb (radians min_elevation) (s_el s).
(** One row of H, dop.py:83-85 and 95-102; 0/0 is NaN. *)
Definition h_row (s : sight) : option vec4 :=
  obind (rdiv (s_r s * cos (s_el s) * cos (s_az s)) (s_r s)) (fun x =>
  obind (rdiv (s_r s * cos (s_el s) * sin (s_az s)) (s_r s)) (fun y =>
  obind (rdiv (s_r s * sin (s_el s)) (s_r s)) (fun z =>
  Some (fun k => match k with 0%nat => x | 1%nat => y | 2%nat => z | _ => 1 end)))).
(** H.T @ H, dop.py:105. *)
Definition gram (rows : list vec4) : mat4 := fun i j => fold_right Rplus 0 (map (fun h => h i * h j) rows).
(** H_inv[k, k], dop.py:112-120. *)
Definition diag (h : mat4) (k : nat) : R := h k k.
(** The rows of the visible satellites; None if some entry is NaN. dop.py:93-102. *)
Fixpoint h_rows (l : list sight) : option (list vec4) :=
  match l with [] => Some [] | s :: r => obind (h_row s) (fun h => obind (h_rows r) (fun hs => Some (h :: hs))) end.

Section Dop.
(** np.linalg.solve(A, np.eye(4)), dop.py:105; None: LinAlgError. *)
Variable solve : mat4 -> option mat4.
(** _dop, dop.py:87-121, for the satellites seen at one time.  A NaN entry of H makes every entry of the
    result NaN. *)
Definition dop (min_elevation : R) (method : dop_method) (min_count_visible : Z) (sights : list sight) : pyres (option R) :=
  let seen := filter (visible min_elevation) sights in
  if (Z.of_nat (length seen) <=? min_count_visible)%Z then Ok None
  else match h_rows seen with
       | None => match method with Invalid => Raise ValueError | _ => Ok None end
       | Some rows =>
           match solve (gram rows) with
           | None => Ok None
           | Some h =>
               match method with
               | GDOP => Ok (np_sqrt (diag h 0 + diag h 1 + diag h 2 + diag h 3))
               | PDOP => Ok (np_sqrt (diag h 0 + diag h 1 + diag h 2))
               | HDOP => Ok (np_sqrt (diag h 0 + diag h 1))
               | VDOP => Ok (np_sqrt (diag h 2))
               | TDOP => Ok (np_sqrt (diag h 3))
               | Invalid => Raise ValueError
               end
           end
       end.
(** One row of the result: its time (the index), dop and geometry (x, y), dop.py:125-135. *)
Record dop_row := mk_dop_row { d_time : Z; d_dop : option R; d_geom : R * R }.
(** compute_dop, dop.py:34-137.  [sky] gives what skyfield reports for a satellite at a time.  Without
    satellites [n] is a scalar (np.sum of an empty vector) and n[i] fails. *)
Definition compute_dop {Sat} (sky : Sat -> Z -> sight) (times : list Z) (latitude longitude : R) (satellites : list Sat)
    (min_elevation : R) (method : dop_method) (min_count_visible : Z) : pyres (list dop_row) :=
  bind (mapM (fun t => if Nat.eqb (length satellites) 0 then Raise IndexError
                       else dop min_elevation method min_count_visible (map (fun s => sky s t) satellites)) times) (fun dops =>
    Ok (map (fun x => mk_dop_row (fst x) (snd x) (latitude, longitude)) (combine times dops))).
End Dop.
