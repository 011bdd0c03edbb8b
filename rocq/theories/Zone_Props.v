(** Properties C172-C174: datetimes and time zones. *)
From Coq Require Import ZArith List Bool.
From Verif Require Import Base Coverage_Model Epoch_Model Zone_Model Zone_Spec Zone_Proofs.
Import ListNotations.
Open Scope Z_scope.

(** C172: a result depends on the instants given and not on the time zones they are given in.  Refuted for
    periods that contain a change of the clock, when repeat cycles are used: two daily passes are lost ... *)
Theorem c172_events_lost_refuted :
  exists find_events es cycle s e ts te, denotes s ts /\ denotes e te
    /\ events_dt find_events (fun _ => []) es true (Some cycle) (utc_dt ts) (utc_dt te)
       = Ok ([hours 47 / 2; hours 95 / 2], [1; 1])
    /\ events_dt find_events (fun _ => []) es true (Some cycle) s e = Ok ([], []).
Proof. exact lost_refuted. Qed.
Print Assumptions c172_events_lost_refuted.

(** ... or a pass is reported twice. *)
Theorem c172_events_twice_refuted :
  exists find_events es cycle s e ts te t, denotes s ts /\ denotes e te
    /\ (exists l k, events_dt find_events (fun _ => []) es true (Some cycle) (utc_dt ts) (utc_dt te) = Ok (l, k)
                   /\ count_occ Z.eq_dec l t = 1%nat)
    /\ (exists l k, events_dt find_events (fun _ => []) es true (Some cycle) s e = Ok (l, k)
                   /\ count_occ Z.eq_dec l t = 2%nat).
Proof. exact twice_refuted. Qed.
Print Assumptions c172_events_twice_refuted.

(** Without a change of the clock, or without repeat cycles, or with several element sets, the events are
    those of the instants (C10-C13 are about those). *)
Theorem c172_events_partial :
  forall find_events argsort es try_repeat cycle s e ts te, denotes s ts -> denotes e te ->
  ((1 < length es)%nat \/ try_repeat = false \/ cycle = None
   \/ (same_object s e /\ forall c, cycle = Some c -> no_clock_change s e c)) ->
  events_dt find_events argsort es try_repeat cycle s e
  = Ok (get_observation_events find_events argsort es try_repeat cycle ts te).
Proof. exact events_all. Qed.
Print Assumptions c172_events_partial.

(** In zones with fixed offsets the zone never matters. *)
Theorem c172_fixed_offsets_partial :
  forall find_events argsort es try_repeat cycle s e ts te, denotes s ts -> denotes e te -> fixed s -> same_object s e ->
  events_dt find_events argsort es try_repeat cycle s e
  = events_dt find_events argsort es try_repeat cycle (utc_dt ts) (utc_dt te).
Proof. exact events_fixed. Qed.
Print Assumptions c172_fixed_offsets_partial.

(** The choice of element sets, the partition of a period, the propagated instants and the visible intervals
    never depend on the zone. *)
Theorem c172_closest_partial :
  forall es a t, denotes a t -> closest_dt es a = Ok (closest es t).
Proof. exact closest_denotes. Qed.
Print Assumptions c172_closest_partial.

Theorem c172_partition_partial :
  forall argsort es s e ts te, denotes s ts -> denotes e te ->
  exists l, partition_dt argsort es s e = Ok (l, snd (partition_by_tle_index argsort es ts te))
    /\ Forall2 denotes l (fst (partition_by_tle_index argsort es ts te)).
Proof. exact partition_denotes. Qed.
Print Assumptions c172_partition_partial.

Theorem c172_track_partial :
  forall es try_repeat cycle l ts, Forall2 denotes l ts ->
  orbit_track_dt es try_repeat cycle l = Ok (orbit_track es try_repeat cycle ts).
Proof. exact track_denotes. Qed.
Print Assumptions c172_track_partial.

Theorem c172_visible_partial :
  forall s e ts te maxacc ev, denotes s ts -> denotes e te ->
  visible_dt s e maxacc ev = visible_intervals ts te maxacc ev.
Proof. exact visible_denotes. Qed.
Print Assumptions c172_visible_partial.

(** Datetimes without zone are refused. *)
Theorem c172_naive_refused :
  forall find_events argsort es try_repeat cycle,
  (forall s e, naive s \/ naive e -> forall r, events_dt find_events argsort es try_repeat cycle s e <> Ok r)
  /\ (forall l a, In a l -> naive a -> forall r, orbit_track_dt es try_repeat cycle l <> Ok r)
  /\ (forall a, es <> [] -> naive a -> closest_dt es a = Raise TypeError).
Proof. exact naive_refused. Qed.
Print Assumptions c172_naive_refused.

Example c172_witness : denotes (mk_dt (hours 5) (Some east)) 0 /\ denotes (mk_dt (hours 48) (Some autumn)) (hours 48)
  /\ denotes (mk_dt (hours 1) (Some autumn)) 0
  /\ fixed (mk_dt (hours 5) (Some east)) /\ same_object (mk_dt (hours 5) (Some east)) (mk_dt (hours 48) (Some autumn))
  /\ naive (mk_dt 0 None).
Proof. exact witness_facts. Qed.

(** C173: an epoch that an orbit accepts can be turned into the epoch of its element set.  Refuted for an
    absent epoch and for one without zone. *)
Theorem c173_accepted_epoch_refuted :
  forall origin, element_epoch origin None = Raise TypeError
    /\ exists a, element_epoch origin (Some a) = Raise TypeError.
Proof. exact epoch_refuted. Qed.
Print Assumptions c173_accepted_epoch_refuted.

(** It can exactly when it has a zone, *)
Theorem c173_usable_exactly_when_partial :
  forall origin e, (exists x, element_epoch origin e = Ok x) <-> exists a, e = Some a /\ ~ naive a.
Proof. exact epoch_usable_iff. Qed.
Print Assumptions c173_usable_exactly_when_partial.

(** and then the element set's epoch is the instant, whatever the zone. *)
Theorem c173_instant_partial :
  forall origin a t, denotes a t -> element_epoch origin (Some a) = Ok (t - origin).
Proof. exact epoch_denotes. Qed.
Print Assumptions c173_instant_partial.

Example c173_witness : denotes (mk_dt (hours 48) (Some autumn)) (hours 48) /\ ~ naive (mk_dt (hours 48) (Some autumn)).
Proof. exact epoch_witness. Qed.

(** C174: an orbit constructed without epoch has the time of its construction for epoch. *)
Theorem c174_default_epoch_refuted :
  exists imported now e, imported < now /\ constructed_epoch imported now None = Some e /\ ~ denotes e now.
Proof. exact default_refuted. Qed.
Print Assumptions c174_default_epoch_refuted.

(** Such orbits all have the time of the import for epoch, so that two of them constructed at different
    times have the same, and an epoch that is given is kept. *)
Theorem c174_import_epoch_partial :
  forall imported now now',
  (exists e, constructed_epoch imported now None = Some e /\ denotes e imported)
  /\ constructed_epoch imported now None = constructed_epoch imported now' None
  /\ forall e, constructed_epoch imported now (Some e) = e.
Proof. exact import_epoch. Qed.
Print Assumptions c174_import_epoch_partial.

Example c174_witness : constructed_epoch 5 9 None = Some (utc_dt 5) /\ denotes (utc_dt 5) 5.
Proof. exact import_witness. Qed.
