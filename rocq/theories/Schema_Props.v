(** C138-C142 and C149: object schemas, saving and loading. *)
From Coq Require Import String List Bool Arith Permutation.
From Verif Require Import Schema_Model Schema_Spec Schema_Proofs Schema_Proofs2 Schema_Proofs3 Schema_Proofs4.
Import ListNotations.
Open Scope string_scope.

(** C138: exact for the objects all of whose parts are of the classes that the fields name, false for the others. *)
Theorem c138_restored_partial : forall atom scalar saved default walker_check choose,
  scalars_restored atom scalar saved default -> chooses atom choose ->
  forall o c, made atom scalar default walker_check choose o -> class o = Some c ->
  (load atom scalar default walker_check choose c (save atom saved o) = Some o <-> as_declared o).
Proof. exact restored_iff. Qed.
Print Assumptions c138_restored_partial.

Example c138_witness : scalars_restored nat ex_scalar ex_saved ex_default /\ chooses nat ex_choose /\ ex_made ex_observer /\ class ex_observer = Some Satellite.
Proof. split; [exact ex_restored|]. split; [exact ex_chooses|]. split; [exact ex_observer_made|reflexivity]. Qed.

Theorem c138_loaded_restored : forall atom scalar saved default walker_check choose,
  scalars_restored atom scalar saved default -> chooses atom choose ->
  forall c description o, plain (PDict description) ->
  construct atom scalar default walker_check choose c description = Some o ->
  load atom scalar default walker_check choose c (save atom saved o) = Some o.
Proof. exact loaded_restored. Qed.
Print Assumptions c138_loaded_restored.

Example c138_loaded_witness : plain (PDict ex_satellite) /\ exists o, ex_construct Satellite ex_satellite = Some o.
Proof. split; [reflexivity|]. eexists. reflexivity. Qed.

Theorem c138_restored_refuted : exists (atom : Set) scalar saved default walker_check choose o,
  scalars_restored atom scalar saved default /\ chooses atom choose /\
  made atom scalar default walker_check choose o /\ class o = Some Satellite /\
  load atom scalar default walker_check choose Satellite (save atom saved o) <> Some o.
Proof. exact restored_refuted. Qed.
Print Assumptions c138_restored_refuted.

(** A MOG constellation around a Keplerian orbit and an architecture with a SOC constellation can be saved, but not loaded. *)
Theorem c138_loadable_refuted : exists (atom : Set) scalar saved default walker_check choose,
  scalars_restored atom scalar saved default /\ chooses atom choose /\
  forall c, In c [Mog; Architecture] -> exists o, made atom scalar default walker_check choose o /\ class o = Some c /\
  load atom scalar default walker_check choose c (save atom saved o) = None.
Proof. exact loadable_refuted. Qed.
Print Assumptions c138_loadable_refuted.

(** C139: which orbits are taken. *)
Theorem c139_orbits_partial : forall atom scalar default walker_check choose c arguments orbit d,
  space_system c -> c <> Walker ->
  construct atom scalar default walker_check choose c arguments <> None -> class orbit = Some d ->
  (construct atom scalar default walker_check choose c (arguments ++ [("orbit", orbit)]) <> None <-> In d (orbits_of c)).
Proof. exact orbit_replaced. Qed.
Print Assumptions c139_orbits_partial.

Example c139_witness : space_system Train /\ ex_construct Train ex_train <> None /\ class ex_keplerian_orbit = Some Keplerian /\ In Keplerian (orbits_of Train)
  /\ class ex_molniya_orbit = Some Molniya /\ ~ In Molniya (orbits_of Train).
Proof. split; [cbn; tauto|]. split; [discriminate|]. split; [reflexivity|]. split; [cbn; tauto|]. split; [reflexivity|]. cbn. intuition discriminate. Qed.

Theorem c139_orbit_kept : forall atom scalar default walker_check choose c arguments o orbit d,
  space_system c -> construct atom scalar default walker_check choose c arguments = Some o ->
  find "orbit" arguments = Some orbit -> class orbit = Some d -> In d (orbits_of c) /\ getattr o "orbit" = Some orbit.
Proof. exact orbit_assigned. Qed.
Print Assumptions c139_orbit_kept.

Example c139_kept_witness : ex_construct Mog [("name", PStr "Mog"); ("orbit", ex_keplerian_orbit); ("parallel_axis", PAtom 10); ("transverse_axis", PAtom 10)] = Some ex_mog.
Proof. reflexivity. Qed.

Theorem c139_orbits_refuted : exists (atom : Set) scalar default walker_check choose orbit,
  made atom scalar default walker_check choose orbit /\ class orbit = Some Molniya /\
  forall c arguments, space_system c -> find "orbit" arguments = Some orbit -> construct atom scalar default walker_check choose c arguments = None.
Proof. exact orbits_refuted. Qed.
Print Assumptions c139_orbits_refuted.

(** C140: instruments that are loaded with a space system. *)
Theorem c140_instruments_partial : forall atom scalar saved default walker_check choose,
  scalars_restored atom scalar saved default -> chooses atom choose ->
  forall c description o, space_system c -> plain (PDict description) ->
  construct atom scalar default walker_check choose c description = Some o ->
  exists l, getattr o "instruments" = Some (PList l) /\ l <> [] /\ Forall (fun i => class i = Some Instrument) l.
Proof. exact instruments_loaded. Qed.
Print Assumptions c140_instruments_partial.

Theorem c140_instruments_refuted : exists (atom : Set) scalar saved default walker_check choose description camera o,
  scalars_restored atom scalar saved default /\ chooses atom choose /\ plain (PDict description) /\
  (exists pointed, find "instruments" description = Some (PList [PDict pointed]) /\
     construct atom scalar default walker_check choose PointedInstrument pointed = Some camera /\ getattr camera "roll_angle" <> None) /\
  construct atom scalar default walker_check choose Satellite description = Some o /\
  exists i, getattr o "instruments" = Some (PList [i]) /\ getattr i "name" = getattr camera "name" /\ getattr i "roll_angle" = None.
Proof. exact instruments_refuted. Qed.
Print Assumptions c140_instruments_refuted.

Example c140_witness : exists o, plain (PDict ex_satellite) /\ ex_construct Satellite ex_satellite = Some o /\ find "instruments" ex_satellite = Some (PList [PDict ex_pointed]) /\
  exists camera, ex_construct PointedInstrument ex_pointed = Some camera /\ getattr camera "roll_angle" = Some (PAtom 30).
Proof. eexists. split; [reflexivity|]. split; [reflexivity|]. split; [reflexivity|]. eexists. split; reflexivity. Qed.

Theorem c140_declared_entries_partial : forall atom scalar default walker_check choose c description description',
  (forall d, In d (fields c) -> find (d_name d) description = find (d_name d) description') ->
  construct atom scalar default walker_check choose c description = construct atom scalar default walker_check choose c description'.
Proof. exact construct_ext. Qed.
Print Assumptions c140_declared_entries_partial.

Example c140_declared_witness : forall d, In d (fields Instrument) -> find (d_name d) ex_pointed = find (d_name d) [("name", PStr "Camera"); ("field_of_regard", PAtom 60)].
Proof. intros d D. cbn in D. repeat (destruct D as [<-|D]; [reflexivity|]). destruct D. Qed.

(** C141: descriptions with a type. *)
Theorem c141_orbit : forall atom scalar default walker_check choose, chooses atom choose ->
  forall c description o l s, space_system c -> construct atom scalar default walker_check choose c description = Some o ->
  find "orbit" description = Some (PDict l) -> find "type" l = Some (PStr s) ->
  exists d f, getattr o "orbit" = Some f /\ class f = Some d /\ type_name d = Some s /\ In d (orbits_of c) /\ construct atom scalar default walker_check choose d l = Some f.
Proof. exact typed_orbit. Qed.
Print Assumptions c141_orbit.

Example c141_witness : exists o, ex_construct Train [("name", PStr "T"); ("interval", PAtom 5); ("orbit", PDict ex_keplerian)] = Some o /\ find "type" ex_keplerian = Some (PStr "keplerian").
Proof. eexists. split; reflexivity. Qed.

Theorem c141_members : forall atom scalar default walker_check choose, chooses atom choose ->
  forall description o ls, construct atom scalar default walker_check choose Architecture description = Some o -> find "satellites" description = Some (PList ls) ->
  exists fs, getattr o "satellites" = Some (PList fs) /\ Forall2 (fun x f =>
    (forall l s, x = PDict l -> find "type" l = Some (PStr s) -> exists d, class f = Some d /\ type_name d = Some s /\ construct atom scalar default walker_check choose d l = Some f)
    /\ (class x <> None -> f = x)) ls fs.
Proof. exact typed_members. Qed.
Print Assumptions c141_members.

Example c141_members_witness : ex_construct Architecture [("name", PStr "Mission"); ("satellites", PList [PDict ex_satellite; PDict ex_train])] = Some ex_plain_mission
  /\ ex_construct Architecture [("name", PStr "Mission"); ("satellites", PList [ex_formation])] = Some ex_mission.
Proof. split; reflexivity. Qed.

(** C142: exact for descriptions with a type; false of SOC constellations. *)
Theorem c142_architecture_partial : forall atom scalar default walker_check choose, chooses atom choose ->
  forall n ls, (forall x, In x ls -> exists l s, x = PDict l /\ find "type" l = Some (PStr s)) ->
  (construct atom scalar default walker_check choose Architecture [("name", n); ("satellites", PList ls)] <> None
   <-> scalar Architecture "name" n <> None /\ forall l, In (PDict l) ls -> exists d s, In d [Satellite; Train; Walker; Mog] /\ type_name d = Some s /\
       find "type" l = Some (PStr s) /\ construct atom scalar default walker_check choose d l <> None).
Proof. exact architecture_accepted. Qed.
Print Assumptions c142_architecture_partial.

Theorem c142_architecture_refuted : exists (atom : Set) scalar default walker_check choose l, chooses atom choose /\ find "type" l = Some (PStr "soc") /\
  construct atom scalar default walker_check choose Soc l <> None /\
  forall n ls, (forall x, In x ls -> exists l s, x = PDict l /\ find "type" l = Some (PStr s)) -> In (PDict l) ls ->
    construct atom scalar default walker_check choose Architecture [("name", n); ("satellites", PList ls)] = None.
Proof. exact soc_refuted. Qed.
Print Assumptions c142_architecture_refuted.

Example c142_architecture_witness : find "type" ex_soc = Some (PStr "soc") /\ ex_construct Soc ex_soc = Some ex_formation /\ find "type" ex_train = Some (PStr "train") /\ ex_construct Train ex_train <> None.
Proof. split; [reflexivity|]. split; [reflexivity|]. split; [reflexivity|discriminate]. Qed.

(** C149: arguments of constructors. *)
Theorem c149_demanded : forall atom scalar default walker_check choose c arguments n,
  construct atom scalar default walker_check choose c arguments <> None -> In n (demanded c) -> find n arguments <> None.
Proof. exact demanded_given. Qed.
Print Assumptions c149_demanded.
Theorem c149_attributes : forall atom scalar default walker_check choose c arguments o n,
  construct atom scalar default walker_check choose c arguments = Some o ->
  class o = Some c /\ (getattr o n <> None <-> In n (demanded c) \/ In n (optional c)).
Proof. exact attributes_are. Qed.
Print Assumptions c149_attributes.
(** Simple attributes: what was given, as converted, else the default. *)
Theorem c149_values : forall atom scalar default walker_check choose c arguments o n,
  construct atom scalar default walker_check choose c arguments = Some o -> In n (demanded c) \/ In n (optional c) -> simple n ->
  getattr o n = match find n arguments with Some v => scalar c n v | None => Some (default c n) end.
Proof. exact values_are. Qed.
Print Assumptions c149_values.
(** The other attributes, when they are left out. *)
Theorem c149_left_out : forall atom scalar default walker_check choose c arguments o,
  construct atom scalar default walker_check choose c arguments = Some o ->
  (forall s, type_name c = Some s -> getattr o "type" = Some (PStr s))
  /\ (space_system c -> find "instruments" arguments = None ->
      exists i, getattr o "instruments" = Some (PList [i]) /\ class i = Some Instrument /\ (forall n, In n (optional Instrument) -> getattr i n = Some (default Instrument n)))
  /\ (c = Architecture -> (find "satellites" arguments = None -> getattr o "satellites" = Some (PList [])) /\ (find "stations" arguments = None -> getattr o "stations" = Some (PList []))).
Proof. exact left_out. Qed.
Print Assumptions c149_left_out.
(** Orbits, instruments and stations: exactly which arguments are accepted. *)
Theorem c149_accepted : forall atom scalar default walker_check choose c arguments, flat_class c ->
  (construct atom scalar default walker_check choose c arguments <> None <->
   (forall n, In n (demanded c) -> find n arguments <> None)
   /\ (forall n v, In n (demanded c) \/ In n (optional c) -> simple n -> find n arguments = Some v -> scalar c n v <> None)
   /\ (forall s v, type_name c = Some s -> find "type" arguments = Some v -> v = PStr s)).
Proof. exact flat_accepted. Qed.
Print Assumptions c149_accepted.
Theorem c149_order : forall atom scalar default walker_check choose c arguments arguments',
  NoDup (map fst arguments) -> Permutation arguments arguments' ->
  construct atom scalar default walker_check choose c arguments = construct atom scalar default walker_check choose c arguments'.
Proof. exact order_free. Qed.
Print Assumptions c149_order.
(** Walker constellations that violate the rules of their validators are not made. *)
Theorem c149_walker : forall atom scalar default walker_check choose arguments o,
  construct atom scalar default walker_check choose Walker arguments = Some o -> exists l, o = PInst Walker l /\ walker_check l = true.
Proof. exact walker_validated. Qed.
Print Assumptions c149_walker.
Example c149_witness : flat_class Keplerian /\ ex_construct Keplerian ex_keplerian <> None /\ NoDup (map fst ex_keplerian)
  /\ In "altitude" (demanded Keplerian) /\ In "eccentricity" (optional Keplerian) /\ simple "eccentricity"
  /\ (exists o, ex_construct Satellite [("name", PStr "S"); ("orbit", ex_keplerian_orbit)] = Some o)
  /\ (exists o, ex_construct Walker [("name", PStr "W"); ("orbit", ex_keplerian_orbit)] = Some o).
Proof.
  split; [cbn; tauto|]. split; [discriminate|]. split; [cbn; repeat constructor; cbn; intuition discriminate|]. split; [cbn; tauto|]. split; [cbn; tauto|].
  split; [unfold simple; cbn; intuition discriminate|]. split; eexists; reflexivity.
Qed.
