(** C187: members of constellations can be changed independently. *)
From Coq Require Import List Arith.
From Verif Require Import Share_Model Share_Spec Share_Proofs.
Import ListNotations.

(** C187: members of trains and Walker constellations have the derived orbit and the same instruments, and are independent. *)
Theorem c187_members : forall (OV IV PV : Type) (specs_of : PV -> OV -> list (PV * OV)) (h : heap OV IV PV) s p v is h' ms,
  closed h -> sees h s p v is -> generate_members OV IV PV specs_of h s = (h', ms) ->
  Forall2 (fun m x => sees h' m (fst x) (snd x) is) ms (specs_of p v) /\ independent h h' ms.
Proof. exact (@generate_full). Qed.
Print Assumptions c187_members.

(** C187: so are those of mutual orbiting groups. *)
Theorem c187_mog : forall (OV IV PV : Type) (specs_of : PV -> OV -> list (PV * OV)) (h : heap OV IV PV) s p v is h' ms,
  closed h -> sees h s p v is -> mog_members OV IV PV specs_of h s = (h', ms) ->
  Forall2 (fun m x => sees h' m (fst x) (snd x) is) ms (specs_of p v) /\ independent h h' ms.
Proof. exact (@mog_full). Qed.
Print Assumptions c187_mog.

(** C187: so are those of streets of coverage. *)
Theorem c187_soc : forall (OV IV PV : Type) (specs_of : PV -> OV -> list (PV * OV)) (walker_of : PV -> OV -> PV) (h : heap OV IV PV) s p v is h' ms,
  closed h -> sees h s p v is -> soc_members OV IV PV specs_of walker_of h s = (h', ms) ->
  Forall2 (fun m x => sees h' m (fst x) (snd x) is) ms (specs_of (walker_of p v) v) /\ independent h h' ms.
Proof. exact (@soc_full). Qed.
Print Assumptions c187_soc.

(** C187: the Walker constellation of streets of coverage can be given other fields, another orbit and other instruments
    (changes of the object and of its list) with no effect on what was there before. *)
Theorem c187_walker_partial : forall (OV IV PV : Type) (walker_of : PV -> OV -> PV) (h : heap OV IV PV) s p v is h1 w,
  sees h s p v is -> generate_walker OV IV PV walker_of h s = Some (h1, w) ->
  exists o l, nth_error h1 w = Some (OSys (walker_of p v) o l) /\ w <> l /\
  forall t p' v' is' h', sees h t p' v' is' -> (forall a, a <> w -> a <> l -> nth_error h' a = nth_error h1 a) -> sees h' t p' v' is'.
Proof. exact (@walker_own). Qed.
Print Assumptions c187_walker_partial.

(** C187: but changes within its orbit are changes of the streets of coverage: they are one object. *)
Theorem c187_walker_refuted : exists (h : heap nat nat nat) s p v is h1 w h', closed h /\ sees h s p v is /\
  generate_walker nat nat nat (fun p _ => p) h s = Some (h1, w) /\ w <> s /\ edited h1 [w] h' /\ ~ sees h' s p v is.
Proof. exact walker_shared. Qed.
Print Assumptions c187_walker_refuted.

(** C187: and the only member of a satellite is the satellite. *)
Theorem c187_satellite_refuted : exists (h : heap nat nat nat) s p v is h1 m h', closed h /\ sees h s p v is /\
  satellite_members nat nat nat h s = (h1, [m]) /\ edited h1 [m] h' /\ ~ sees h' s p v is.
Proof. exact satellite_shared. Qed.
Print Assumptions c187_satellite_refuted.

(** A constellation that lists one instrument twice, its two members, and a change of the instrument of the first member. *)
Example c187_witness : exists h' ms h'', generate_members nat nat nat wspecs wh 3 = (h', ms) /\ ms = [8; 13] /\
  edited h' [8] h'' /\ sees h' 8 8 500 [1; 1] /\ sees h'' 8 8 500 [9; 9] /\ sees h'' 13 9 501 [1; 1] /\ sees h'' 3 7 500 [1; 1].
Proof. exact share_witness. Qed.
