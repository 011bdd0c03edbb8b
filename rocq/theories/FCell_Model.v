(** Binary64 model of generate_equally_spaced_cells without a mask and strips (src/tatc/generation/cells.py:24-194).
    Grid_Model treats the same function, with masks and strips, over exact reals. *)
From Coq Require Import ZArith Bool List.
From Flocq Require Import Core IEEE754.BinarySingleNaN.
From Verif Require Import Base Float_Model Grid_Model FGrid_Model.
Import ListNotations.
Open Scope Z_scope.

(** [-180 + i * theta] and [-90 + j * theta], cells.py:107-168; an int times a float: the int is converted, exactly below 2^53. *)
Definition f_edge (lo i : Z) (theta : b64) : b64 := fadd (of_Z lo) (fmul (of_Z i) theta).
(** One row of the frame: the id and the corners of the rectangle, cells.py:97-180 (the elevation is copied and not kept here). *)
Record fcell := mk_fcell { c_id : Z; c_west : b64; c_south : b64; c_east : b64; c_north : b64 }.
(** _generate_equally_spaced_cells without mask and strips, cells.py:55-194. *)
Definition f_gen_cells (thi thj : b64) : list fcell :=
  map (fun ij => mk_fcell (f_point_id (fst ij) (snd ij) thi thj)
                   (f_edge (-180) (fst ij) thi) (f_edge (-90) (snd ij) thj)
                   (f_edge (-180) (fst ij + 1) thi) (f_edge (-90) (snd ij + 1) thj))
      (f_indices thi thj).
(** generate_equally_spaced_cells without mask and strips, cells.py:24-52. *)
Definition f_generate_cells (distance : b64) : list fcell := f_gen_cells (f_step distance) (f_step distance).
