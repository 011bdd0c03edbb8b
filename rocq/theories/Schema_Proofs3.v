(** Concrete oracles and objects for the schema properties. *)
From Coq Require Import String List Bool Arith.
From Verif Require Import Schema_Model Schema_Spec Schema_Proofs Schema_Proofs2.
Import ListNotations.
Open Scope string_scope.

(** Atoms are natural numbers; scalar fields take numbers, names are strings, and an instrument's field of regard is
    at most 360. *)
Definition ex_scalar (c : cls) (f : string) (v : pv nat) : option (pv nat) :=
  match v with
  | PAtom n => if String.eqb f "name" then None else if String.eqb f "field_of_regard" then if Nat.leb n 360 then Some v else None else Some v
  | PStr s => if String.eqb f "name" then Some v else None
  | _ => None
  end.
Definition ex_saved (_ : cls) (_ : string) (v : pv nat) : pv nat := v.
Definition ex_default (_ : cls) (f : string) : pv nat := if String.eqb f "name" then PStr "Default" else PAtom 180.
Definition ex_check (_ : list (string * pv nat)) : bool := true.
Definition ex_choose (l : list (pv nat)) : option (pv nat) := hd_error l.
Lemma ex_restored : scalars_restored nat ex_scalar ex_saved ex_default.
Proof.
  split; [|split].
  - intros c f x y. unfold ex_saved. destruct x; cbn; try discriminate.
    + destruct (String.eqb f "name") eqn:N; [discriminate|]. destruct (String.eqb f "field_of_regard") eqn:R.
      * destruct (Nat.leb a 360) eqn:L; [|discriminate]. intros [= <-]. cbn. rewrite N, R, L. now split.
      * intros [= <-]. cbn. rewrite N, R. now split.
    + destruct (String.eqb f "name") eqn:N; [|discriminate]. intros [= <-]. cbn. rewrite N. now split.
  - intros c f y P. exact P.
  - intros c f. unfold ex_saved, ex_default. destruct (String.eqb f "name") eqn:N; cbn; rewrite N; [reflexivity|]. destruct (String.eqb f "field_of_regard"); reflexivity.
Qed.
Lemma ex_chooses : chooses nat ex_choose.
Proof. split; [intros [|x l] y; [discriminate|]; intros [= ->]; now left|discriminate]. Qed.
Notation ex_construct := (construct nat ex_scalar ex_default ex_check ex_choose).
Notation ex_made := (made nat ex_scalar ex_default ex_check ex_choose).
Notation ex_load := (load nat ex_scalar ex_default ex_check ex_choose).
Notation ex_save := (save nat ex_saved).
Definition got (r : option (pv nat)) : pv nat := match r with Some o => o | None => PAtom 0 end.

(** Descriptions, as in files. *)
Definition ex_circular : list (string * pv nat) := [("altitude", PAtom 500); ("type", PStr "circular")].
Definition ex_keplerian : list (string * pv nat) := [("altitude", PAtom 500); ("type", PStr "keplerian"); ("eccentricity", PAtom 0)].
Definition ex_molniya : list (string * pv nat) := [("altitude", PAtom 500); ("type", PStr "molniya")].
Definition ex_pointed : list (string * pv nat) :=
  [("name", PStr "Camera"); ("field_of_regard", PAtom 60); ("cross_track_field_of_view", PAtom 5); ("along_track_field_of_view", PAtom 2); ("roll_angle", PAtom 30)].
Definition ex_satellite : list (string * pv nat) := [("name", PStr "Sat"); ("orbit", PDict ex_circular); ("instruments", PList [PDict ex_pointed]); ("type", PStr "satellite")].
Definition ex_soc : list (string * pv nat) := [("name", PStr "Soc"); ("orbit", PDict ex_circular); ("swath_width", PAtom 100); ("packing_distance", PAtom 1); ("type", PStr "soc")].
Definition ex_train : list (string * pv nat) := [("name", PStr "Train"); ("orbit", PDict ex_circular); ("interval", PAtom 600); ("type", PStr "train")].

(** Objects: a pointed instrument, and a satellite that carries it. *)
Definition ex_camera : pv nat := Eval vm_compute in got (ex_construct PointedInstrument ex_pointed).
Definition ex_observer : pv nat := Eval vm_compute in got (ex_construct Satellite [("name", PStr "Sat"); ("orbit", PDict ex_circular); ("instruments", PList [ex_camera])]).
Definition ex_molniya_orbit : pv nat := Eval vm_compute in got (ex_construct Molniya ex_molniya).
Definition ex_keplerian_orbit : pv nat := Eval vm_compute in got (ex_construct Keplerian ex_keplerian).
Definition ex_mog : pv nat := Eval vm_compute in got (ex_construct Mog [("name", PStr "Mog"); ("orbit", ex_keplerian_orbit); ("parallel_axis", PAtom 10); ("transverse_axis", PAtom 10)]).
Definition ex_formation : pv nat := Eval vm_compute in got (ex_construct Soc ex_soc).
Definition ex_mission : pv nat := Eval vm_compute in got (ex_construct Architecture [("name", PStr "Mission"); ("satellites", PList [ex_formation])]).
Definition ex_plain_mission : pv nat := Eval vm_compute in got (ex_construct Architecture [("name", PStr "Mission"); ("satellites", PList [PDict ex_satellite; PDict ex_train])]).

Lemma ex_camera_made : ex_made ex_camera.
Proof. apply (made_by _ _ _ _ _ PointedInstrument ex_pointed); [intros x []|reflexivity]. Qed.
Lemma ex_observer_made : ex_made ex_observer.
Proof.
  apply (made_by _ _ _ _ _ Satellite [("name", PStr "Sat"); ("orbit", PDict ex_circular); ("instruments", PList [ex_camera])]); [|reflexivity].
  intros x [<-|[]]. exact ex_camera_made.
Qed.
Lemma ex_molniya_made : ex_made ex_molniya_orbit.
Proof. apply (made_by _ _ _ _ _ Molniya ex_molniya); [intros x []|reflexivity]. Qed.
Lemma ex_keplerian_made : ex_made ex_keplerian_orbit.
Proof. apply (made_by _ _ _ _ _ Keplerian ex_keplerian); [intros x []|reflexivity]. Qed.
Lemma ex_mog_made : ex_made ex_mog.
Proof.
  apply (made_by _ _ _ _ _ Mog [("name", PStr "Mog"); ("orbit", ex_keplerian_orbit); ("parallel_axis", PAtom 10); ("transverse_axis", PAtom 10)]); [|reflexivity].
  intros x [<-|[]]. exact ex_keplerian_made.
Qed.
Lemma ex_mission_made : ex_made ex_mission.
Proof.
  apply (made_by _ _ _ _ _ Architecture [("name", PStr "Mission"); ("satellites", PList [ex_formation])]); [|reflexivity].
  intros x [<-|[]]. apply (made_by _ _ _ _ _ Soc ex_soc); [intros x []|reflexivity].
Qed.
Lemma ex_observer_lost : exists o l i, ex_load Satellite (ex_save ex_observer) = Some o /\ o <> ex_observer /\ getattr o "instruments" = Some (PList l) /\ In i l /\ class i = Some Instrument.
Proof. eexists. eexists. eexists. split; [reflexivity|]. split; [discriminate|]. split; [reflexivity|]. split; [left; reflexivity|reflexivity]. Qed.
Lemma ex_mog_lost : ex_load Mog (ex_save ex_mog) = None.
Proof. reflexivity. Qed.
Lemma ex_mission_lost : ex_load Architecture (ex_save ex_mission) = None.
Proof. reflexivity. Qed.
Lemma ex_refuted : ex_made ex_observer /\ class ex_observer = Some Satellite /\ ex_load Satellite (ex_save ex_observer) <> Some ex_observer.
Proof. split; [exact ex_observer_made|]. split; [reflexivity|]. destruct ex_observer_lost as (o & _ & _ & -> & N & _). congruence. Qed.
Lemma ex_not_loaded : (ex_made ex_mog /\ class ex_mog = Some Mog /\ ex_load Mog (ex_save ex_mog) = None) /\ (ex_made ex_mission /\ class ex_mission = Some Architecture /\ ex_load Architecture (ex_save ex_mission) = None).
Proof. split; (split; [apply ex_mog_made || apply ex_mission_made|]; split; reflexivity). Qed.
Lemma ex_molniya_refused c kw : space_system c -> find "orbit" kw = Some ex_molniya_orbit -> ex_construct c kw = None.
Proof.
  intros S F. destruct (ex_construct c kw) as [o|] eqn:E; [|reflexivity]. exfalso. pose proof (orbit_assigned nat ex_scalar ex_default ex_check ex_choose c kw o ex_molniya_orbit Molniya S E F eq_refl) as [I _].
  destruct S as [<-|[<-|[<-|[<-|[<-|[]]]]]]; cbn in I; repeat (destruct I as [I|I]; [discriminate|]); destruct I.
Qed.
Lemma restored_refuted : exists (atom : Set) scalar saved default walker_check choose o,
  scalars_restored atom scalar saved default /\ chooses atom choose /\
  made atom scalar default walker_check choose o /\ class o = Some Satellite /\
  load atom scalar default walker_check choose Satellite (save atom saved o) <> Some o.
Proof. exists nat, ex_scalar, ex_saved, ex_default, ex_check, ex_choose, ex_observer. split; [exact ex_restored|]. split; [exact ex_chooses|]. exact ex_refuted. Qed.
Lemma loadable_refuted : exists (atom : Set) scalar saved default walker_check choose,
  scalars_restored atom scalar saved default /\ chooses atom choose /\
  forall c, In c [Mog; Architecture] -> exists o, made atom scalar default walker_check choose o /\ class o = Some c /\
  load atom scalar default walker_check choose c (save atom saved o) = None.
Proof.
  exists nat, ex_scalar, ex_saved, ex_default, ex_check, ex_choose. split; [exact ex_restored|]. split; [exact ex_chooses|].
  intros c [<-|[<-|[]]]; [exists ex_mog|exists ex_mission]; apply ex_not_loaded.
Qed.
Lemma orbits_refuted : exists (atom : Set) scalar default walker_check choose orbit,
  made atom scalar default walker_check choose orbit /\ class orbit = Some Molniya /\
  forall c arguments, space_system c -> find "orbit" arguments = Some orbit -> construct atom scalar default walker_check choose c arguments = None.
Proof. exists nat, ex_scalar, ex_default, ex_check, ex_choose, ex_molniya_orbit. split; [exact ex_molniya_made|]. split; [reflexivity|exact ex_molniya_refused]. Qed.
Lemma instruments_refuted : exists (atom : Set) scalar saved default walker_check choose description camera o,
  scalars_restored atom scalar saved default /\ chooses atom choose /\ plain (PDict description) /\
  (exists pointed, find "instruments" description = Some (PList [PDict pointed]) /\
     construct atom scalar default walker_check choose PointedInstrument pointed = Some camera /\ getattr camera "roll_angle" <> None) /\
  construct atom scalar default walker_check choose Satellite description = Some o /\
  exists i, getattr o "instruments" = Some (PList [i]) /\ getattr i "name" = getattr camera "name" /\ getattr i "roll_angle" = None.
Proof.
  exists nat, ex_scalar, ex_saved, ex_default, ex_check, ex_choose, ex_satellite, ex_camera. eexists. split; [exact ex_restored|]. split; [exact ex_chooses|]. split; [reflexivity|].
  split; [exists ex_pointed; split; [reflexivity|split; [reflexivity|discriminate]]|]. split; [reflexivity|]. eexists. split; [reflexivity|]. split; reflexivity.
Qed.
Lemma soc_refuted : exists (atom : Set) scalar default walker_check choose l, chooses atom choose /\ find "type" l = Some (PStr "soc") /\
  construct atom scalar default walker_check choose Soc l <> None /\
  forall n ls, (forall x, In x ls -> exists l s, x = PDict l /\ find "type" l = Some (PStr s)) -> In (PDict l) ls ->
    construct atom scalar default walker_check choose Architecture [("name", n); ("satellites", PList ls)] = None.
Proof.
  exists nat, ex_scalar, ex_default, ex_check, ex_choose, ex_soc. split; [exact ex_chooses|]. split; [reflexivity|]. split; [discriminate|]. intros n ls T I.
  destruct (ex_construct Architecture _) as [o|] eqn:E; [|reflexivity]. exfalso. assert (N : ex_construct Architecture [("name", n); ("satellites", PList ls)] <> None) by (rewrite E; discriminate).
  apply (architecture_accepted nat ex_scalar ex_default ex_check ex_choose ex_chooses n ls T) in N. destruct N as [_ N]. destruct (N _ I) as (d & s & D & S & F & _). cbn in F. injection F as <-.
  destruct D as [<-|[<-|[<-|[<-|[]]]]]; discriminate S.
Qed.
