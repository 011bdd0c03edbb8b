(** Model of which objects space systems share, src/tatc/schemas/satellite.py: satellites, constellations, their orbits
    and their instruments are mutable objects of a heap. *)
From Coq Require Import List Arith Bool.
Import ListNotations.

(** An address; objects are never moved or freed.  satellite.py (all). *)
Notation addr := nat (only parsing).
(** The objects.  [OV] and [IV] are the field values of an orbit and of an instrument, [PV] the remaining fields of a space
    system (name, type, numbers of satellites, ...).  A space system refers to an orbit object and to a list object, the list
    to instrument objects.  satellite.py:29-44.  Simplified: the list of lines within a TwoLineElements
    is part of its value (get_derived_orbit works on a copy, orbit.py:351). *)
Inductive obj (OV IV PV : Type) := OOrbit (v : OV) | OInstr (v : IV) | OList (l : list addr) | OSys (p : PV) (orbit instruments : addr).
Arguments OOrbit {OV IV PV}.
Arguments OInstr {OV IV PV}.
Arguments OList {OV IV PV}.
Arguments OSys {OV IV PV}.

Section Share.
Variables OV IV PV : Type.
Local Notation object := (obj OV IV PV).
(** The object at an address is the one at that position.  satellite.py (all). *)
Definition heap := list object.
(** Creation of an object: its address and the heap with it.  satellite.py:121-127, 250-261, 391-395. *)
Definition alloc (h : heap) (o : object) : heap * addr := (h ++ [o], length h).

(** copy.deepcopy of a list of instruments, satellite.py:126, 260, 394: every instrument object is copied once (deepcopy keeps
    a memo: an instrument that is listed twice is one object in the copy as well), then the list. *)
Fixpoint copy_instruments (h : heap) (memo : list (addr * addr)) (l : list addr) : heap * list addr :=
  match l with
  | [] => (h, [])
  | a :: r =>
      match find (fun x => fst x =? a) memo with
      | Some x => let '(h1, k) := copy_instruments h memo r in (h1, snd x :: k)
      | None =>
          match nth_error h a with
          | Some o => let '(h1, b) := alloc h o in
                      let '(h2, k) := copy_instruments h1 ((a, b) :: memo) r in (h2, b :: k)
          | None => copy_instruments h memo r
          end
      end
  end.
(** The instruments a space system lists. satellite.py:42-44. *)
Definition listed (h : heap) (l : addr) : list addr := match nth_error h l with Some (OList k) => k | _ => [] end.
(** See [copy_instruments]. *)
Definition deepcopy (h : heap) (l : addr) : heap * addr :=
  let '(h1, k) := copy_instruments h [] (listed h l) in alloc h1 (OList k).
(** Satellite(name=..., orbit=..., instruments=...) and WalkerConstellation(...), satellite.py:121-127, 473-479: pydantic
    keeps the orbit and instrument objects it is given and makes a new list. *)
Definition construct (h : heap) (p : PV) (orbit instruments : addr) : heap * addr :=
  let '(h1, l) := alloc h (OList (listed h instruments)) in alloc h1 (OSys p orbit l).

(** The orbit value that an address holds; None: not an orbit. satellite.py:39-41. *)
Definition orbit_at (h : heap) (a : addr) : option OV := match nth_error h a with Some (OOrbit v) => Some v | _ => None end.
(** One member of a train or Walker constellation, satellite.py:120-129 and 249-263: a derived orbit (get_derived_orbit always
    makes a new object, orbit.py:376, 782, 895, 972, 1090, 1175), a deep copy of the instruments, a satellite. *)
Definition member (h : heap) (p : PV) (derived : OV) (instruments : addr) : heap * addr :=
  let '(h1, o) := alloc h (OOrbit derived) in
  let '(h2, l) := deepcopy h1 instruments in
  construct h2 p o l.
(** The members with their fields [ps] and derived orbits, in order.  satellite.py:120-129 and 249-263. *)
Fixpoint members (h : heap) (specs : list (PV * OV)) (instruments : addr) : heap * list addr :=
  match specs with
  | [] => (h, [])
  | (p, v) :: r => let '(h1, m) := member h p v instruments in
                   let '(h2, ms) := members h1 r instruments in (h2, m :: ms)
  end.
(** The fields and derived orbits of the members, computed from the fields of the constellation and its orbit
    (Const_Model: train_members, walker_members). *)
Variable specs_of : PV -> OV -> list (PV * OV).
(** generate_members of TrainConstellation and WalkerConstellation, satellite.py:112-129 and 241-263. *)
Definition generate_members (h : heap) (s : addr) : heap * list addr :=
  match nth_error h s with
  | Some (OSys p o l) => match orbit_at h o with Some v => members h (specs_of p v) l | None => (h, []) end
  | _ => (h, [])
  end.

(** MOGConstellation.generate_members, satellite.py:295-398: all orbits are made first ... *)
Fixpoint new_orbits (h : heap) (vs : list OV) : heap * list addr :=
  match vs with [] => (h, []) | v :: r => let '(h1, o) := alloc h (OOrbit v) in let '(h2, os) := new_orbits h1 r in (h2, o :: os) end.
(** ... then the satellites, satellite.py:390-397. *)
Fixpoint satellites (h : heap) (l : list (PV * addr)) (instruments : addr) : heap * list addr :=
  match l with
  | [] => (h, [])
  | (p, o) :: r => let '(h1, k) := deepcopy h instruments in let '(h2, m) := construct h1 p o k in
                   let '(h3, ms) := satellites h2 r instruments in (h3, m :: ms)
  end.
(** See [new_orbits]. *)
Definition mog_members (h : heap) (s : addr) : heap * list addr :=
  match nth_error h s with
  | Some (OSys p o l) =>
      match orbit_at h o with
      | Some v => let specs := specs_of p v in
                  let '(h1, os) := new_orbits h (map snd specs) in satellites h1 (combine (map fst specs) os) l
      | None => (h, [])
      end
  | _ => (h, [])
  end.
(** Satellite.generate_members, satellite.py:56-63: the satellite itself. *)
Definition satellite_members (h : heap) (s : addr) : heap * list addr := (h, [s]).
(** SOCConstellation.generate_walker, satellite.py:422-479: the fields are computed ([walker_of], Geom_Model), the orbit and
    the instruments are those of the constellation. *)
Variable walker_of : PV -> OV -> PV.
(** See above. *)
Definition generate_walker (h : heap) (s : addr) : option (heap * addr) :=
  match nth_error h s with
  | Some (OSys p o l) => match orbit_at h o with Some v => Some (construct h (walker_of p v) o l) | None => None end
  | _ => None
  end.
(** SOCConstellation.generate_members, satellite.py:481-482. *)
Definition soc_members (h : heap) (s : addr) : heap * list addr :=
  match generate_walker h s with Some (h1, w) => generate_members h1 w | None => (h, []) end.
End Share.
