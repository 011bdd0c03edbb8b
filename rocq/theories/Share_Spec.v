(** Specification vocabulary for shared objects. *)
From Coq Require Import List Arith.
From Verif Require Import Share_Model.
Import ListNotations.

Section Spec.
Context {OV IV PV : Type}.
Local Notation heap := (heap OV IV PV).
Local Notation object := (obj OV IV PV).

(** What one sees of a space system: its own fields, its orbit and its instruments in order. *)
Inductive sees (h : heap) (s : addr) (p : PV) (v : OV) (is : list IV) : Prop :=
| sees_it o l k : nth_error h s = Some (OSys p o l) -> nth_error h o = Some (OOrbit v) -> nth_error h l = Some (OList k) ->
    Forall2 (fun a i => nth_error h a = Some (OInstr i)) k is -> sees h s p v is.
(** The references in an object. *)
Definition refs (o : object) : list addr := match o with OOrbit _ => [] | OInstr _ => [] | OList l => l | OSys _ a b => [a; b] end.
(** An object that can be reached from another one through references. *)
Inductive reach (h : heap) : addr -> addr -> Prop :=
| reach_self a : reach h a a
| reach_step a b c o : nth_error h a = Some o -> In b (refs o) -> reach h b c -> reach h a c.
(** What a program can do that holds the objects [A]: create objects that refer to objects it holds, and change an object it
    holds in any way, with references to objects it holds. *)
Inductive edits : heap * (addr -> Prop) -> heap -> Prop :=
| edits_done h (A : addr -> Prop) : edits (h, A) h
| edits_new h (A : addr -> Prop) o h' : (forall b, In b (refs o) -> A b) -> edits (h ++ [o], fun a => A a \/ a = length h) h' -> edits (h, A) h'
| edits_change h1 old h2 (A : addr -> Prop) o h' : A (length h1) -> (forall b, In b (refs o) -> A b) -> edits (h1 ++ o :: h2, A) h' ->
    edits (h1 ++ old :: h2, A) h'.
(** Changing everything that can be reached from any of [roots]. *)
Definition edited (h : heap) (roots : list addr) (h' : heap) : Prop := edits (h, fun a => exists r, In r roots /\ reach h r a) h'.
(** [s] can be changed without an effect on [t]. *)
Definition no_effect (h : heap) (roots : list addr) (t : addr) : Prop :=
  forall h', edited h roots h' -> forall p v is, sees h t p v is -> sees h' t p v is.
(** No dangling references. *)
Definition closed (h : heap) : Prop := forall a o b, nth_error h a = Some o -> In b (refs o) -> b < length h.
(** The objects [ms], made when the heap was [h], are new and can be changed independently of each other and of everything
    that existed before, and nothing that existed before was changed when they were made. *)
Definition independent (h h' : heap) (ms : list addr) : Prop :=
  NoDup ms /\ (forall t p v is, sees h t p v is -> sees h' t p v is) /\
  (forall t roots, In t ms -> (forall r, In r roots -> r <> t /\ (In r ms \/ r < length h)) -> no_effect h' roots t) /\
  (forall t roots, t < length h -> (forall r, In r roots -> In r ms) -> no_effect h' roots t).
End Spec.
