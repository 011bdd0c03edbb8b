(** Specification vocabulary: what is seen from a place of satellites with several element sets. *)
From Coq Require Import Reals ZArith List Bool.
From Verif Require Import Base Dop_Model Dopat_Model Epoch_Spec.
Import ListNotations.
Open Scope R_scope.

(** The element sets of a list of lines: two lines each. *)
Fixpoint element_sets {L} (l : list L) : list (L * L) :=
  match l with l1 :: l2 :: r => (l1, l2) :: element_sets r | _ => [] end.
(** The satellite with these lines is seen, from the place itself and propagated from the element set whose epoch is nearest. *)
Definition truly_seen {L} (epoch : L * L -> Z) (altaz : L * L -> place -> Z -> sight) (p : place) (t : Z) (lines : list L) (s : sight) : Prop :=
  exists k e, nth_error (element_sets lines) k = Some e /\ nearest (map epoch (element_sets lines)) t k /\ s = altaz e p t.
(** The dilution of precision of each row is that of the satellites as seen from the place itself at the time of the row. *)
Definition true_row {L O} (to_tle : O -> pyres (list L)) (epoch : L * L -> Z) (altaz : L * L -> place -> Z -> sight) (solve : mat4 -> option mat4)
    (p : place) (sats : list O) (min_elevation : R) (method : dop_method) (min_count : Z) (r : dop_row) : Prop :=
  exists sights, Forall2 (fun o s => exists lines, to_tle o = Ok lines /\ truly_seen epoch altaz p (d_time r) lines s) sats sights
    /\ dop solve min_elevation method min_count sights = Ok (d_dop r).
