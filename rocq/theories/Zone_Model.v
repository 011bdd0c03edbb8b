(** Model of the handling of Python datetimes and their time zones by the orbit schemas
    (src/tatc/schemas/orbit.py:391-690, 707-712, 982-1019).  Epoch_Model treats the same functions over
    instants. *)
From Coq Require Import ZArith List Bool.
From Verif Require Import Base Coverage_Model Epoch_Model.
Import ListNotations.
Open Scope Z_scope.

(** A tzinfo object: its identity and its utcoffset as a function of the wall clock (microseconds).
    Simplified: [fold] is always 0.  orbit.py:361, 710, 1004. *)
Record zone := mk_zone { z_id : Z; z_off : Z -> Z }.
(** timezone.utc, and skyfield's and sgp4's objects for it (all have offset 0, so that it does not matter
    which of them a datetime has).  orbit.py:110, 361, 545. *)
Definition utc : zone := mk_zone 0 (fun _ => 0).
(** A datetime: wall clock (microseconds) and tzinfo (None: a naive datetime).  orbit.py:392, 444, 555, 621. *)
Record dt := mk_dt { d_wall : Z; d_zone : option zone }.
(** The UTC datetime of an instant, as returned by get_epoch and utc_datetime.  orbit.py:107-120, 545, 657. *)
Definition utc_dt (t : Z) : dt := mk_dt t (Some utc).
(** datetime - datetime: two datetimes with the same tzinfo object (or none) are subtracted by the wall
    clock, others by instant; naive and aware ones cannot be mixed.  orbit.py:421, 545, 597, 604, 666, 1004. *)
Definition dt_sub (a b : dt) : pyres Z :=
  match d_zone a, d_zone b with
  | None, None => Ok (d_wall a - d_wall b)
  | Some za, Some zb =>
      if z_id za =? z_id zb then Ok (d_wall a - d_wall b)
      else Ok ((d_wall a - z_off za (d_wall a)) - (d_wall b - z_off zb (d_wall b)))
  | _, _ => Raise TypeError
  end.
(** datetime < datetime follows the same rule.  orbit.py:416, 464. *)
Definition dt_lt (a b : dt) : pyres bool := bind (dt_sub a b) (fun x => Ok (x <? 0)).
(** datetime <= datetime.  orbit.py:684-685. *)
Definition dt_le (a b : dt) : pyres bool := bind (dt_sub a b) (fun x => Ok (x <=? 0)).
(** datetime + timedelta moves the wall clock.  orbit.py:599-609, 667, 676. *)
Definition dt_add (a : dt) (x : Z) : dt := mk_dt (d_wall a + x) (d_zone a).
(** skyfield's from_datetime (and from_datetimes, element by element): the instant; naive datetimes are
    refused.  orbit.py:575-591, 649-650, 662, 667, 688, 863. *)
Definition from_datetime (a : dt) : pyres Z :=
  match d_zone a with Some z => Ok (d_wall a - z_off z (d_wall a)) | None => Raise ValueError end.

(** get_closest_tle_index for one datetime, orbit.py:415-426; [es] are the epochs of the TLEs. *)
Definition closest_dt (es : list Z) (t : dt) : pyres nat :=
  bind (mapM (fun e => dt_lt (utc_dt e) t) es) (fun below =>
  let idx := length (filter (fun b => b) below) in
  if Nat.ltb 0 idx then
    if Nat.eqb idx (length es) then Ok (idx - 1)%nat
    else bind (dt_sub t (utc_dt (nth (idx - 1) es 0))) (fun x =>
         bind (dt_sub t (utc_dt (nth idx es 0))) (fun y =>
         Ok (if Z.abs x <? Z.abs y then (idx - 1)%nat else idx)))
  else Ok idx).
(** start < t < end, orbit.py:464. *)
Definition within_dt (start end_ : dt) (t : Z) : pyres bool :=
  bind (dt_lt start (utc_dt t)) (fun b => if b then dt_lt (utc_dt t) end_ else Ok false).
(** partition_by_tle_index, orbit.py:443-472. *)
Definition partition_dt (argsort : list Z -> list nat) (es : list Z) (start end_ : dt) : pyres (list dt * list nat) :=
  if Nat.leb (length es) 1 then Ok ([start; end_], [0; 0]%nat)
  else
    let tle_i := argsort es in
    let ms := enumerate (midpoints (np_sort es)) in
    bind (mapM (fun p => within_dt start end_ (snd p)) ms) (fun bs =>
    let sel := map snd (filter fst (combine bs ms)) in
    bind (closest_dt es start) (fun i0 => bind (closest_dt es end_) (fun i1 =>
    Ok (start :: map (fun p => utc_dt (snd p)) sel ++ [end_],
        i0 :: map (fun p => nth (fst p) tle_i 0%nat) sel ++ [i1])))).

(** get_orbit_track for a list of datetimes, orbit.py:554-616: the (TLE index, instant) pairs at which SGP4
    is evaluated. *)
Definition orbit_track_dt (es : list Z) (try_repeat : bool) (cycle : option Z) (ts : list dt) : pyres (list (nat * Z)) :=
  if Nat.ltb 1 (length es) then
    bind (mapM (closest_dt es) ts) (fun is => bind (mapM from_datetime ts) (fun us => Ok (combine is us)))
  else bind (mapM from_datetime ts) (fun us =>
       match try_repeat, cycle with
       | true, Some c =>
           let epoch := nth 0 es 0 in
           mapM (fun t => bind (dt_sub t (utc_dt epoch)) (fun o =>
                          bind (from_datetime (dt_add (utc_dt epoch) (Z.sgn o * (Z.abs o mod c)))) (fun u => Ok (0%nat, u)))) ts
       | _, _ => Ok (map (fun u => (0%nat, u)) us)
       end).

Section Events.
(** skyfield's find_events, as in Epoch_Model. orbit.py:647-652, 668, 690. *)
Variable find_events : nat -> Z -> Z -> list Z * list Z.
(** Several TLEs, orbit.py:643-660. *)
Definition multi_events_dt (parts : list dt * list nat) : pyres (list Z * list Z) :=
  bind (mapM from_datetime (fst parts)) (fun us => Ok (multi_events find_events (us, snd parts))).
(** One TLE with a repeat cycle, orbit.py:664-686; [length] is end - start and [t0] the instant of the start. *)
Definition repeat_events_dt (cycle : Z) (start : dt) (t0 : Z) (end_ : dt) (length_ : Z) : pyres (list Z * list Z) :=
  bind (from_datetime (dt_add start cycle)) (fun t1 =>
  let base := find_events 0%nat t0 t1 in
  let n := Z.to_nat (ceil_div length_ cycle) in
  if Nat.eqb (length (fst base)) 0 then Ok ([], [])
  else
    let times := flat_map (fun i => map (fun t => t + Z.of_nat i * cycle) (fst base)) (seq 0 n) in
    let evs := flat_map (fun _ : nat => snd base) (seq 0 n) in
    bind (mapM (fun t => dt_le (utc_dt t) end_) times) (fun keep => Ok (mask keep times, mask keep evs))).
(** get_observation_events, orbit.py:618-690. *)
Definition events_dt (argsort : list Z -> list nat) (es : list Z) (try_repeat : bool) (cycle : option Z) (start end_ : dt)
    : pyres (list Z * list Z) :=
  if Nat.ltb 1 (length es) then bind (partition_dt argsort es start end_) multi_events_dt
  else bind (from_datetime start) (fun t0 =>
       let plain := bind (from_datetime end_) (fun t1 => Ok (find_events 0%nat t0 t1)) in
       match try_repeat, cycle with
       | true, Some c => bind (dt_sub end_ start) (fun len =>
                         if c <? len then repeat_events_dt c start t0 end_ len else plain)
       | _, _ => plain
       end).
End Events.

(** The epoch of an element set in microseconds after 1949-12-31, orbit.py:1004-1005 (and 361, 1122): [origin]
    is datetime(1949, 12, 31, tzinfo=timezone.utc).  The epoch field may be None (orbit.py:709). *)
Definition element_epoch (origin : Z) (epoch : option dt) : pyres Z :=
  match epoch with None => Raise TypeError | Some e => dt_sub e (utc_dt origin) end.
(** The epoch of an orbit constructed at the instant [now] in a process that imported tatc at [imported];
    [arg] is the epoch argument (None: not given).  The default is evaluated once, with the class body.
    orbit.py:709-712.  pydantic's Optional[datetime] accepts None, naive and aware datetimes. *)
Definition constructed_epoch (imported now : Z) (arg : option (option dt)) : option dt :=
  match arg with Some e => e | None => Some (utc_dt imported) end.

(** coverage.py:78-89: a leading set event opens a period at [start]; [s0] is start.astimezone(utc). *)
Definition leading_dt (start : dt) (s0 : Z) (rises sets : list Z) : pyres (list (Z * Z)) :=
  match sets with
  | [] => Ok []
  | s :: _ =>
      if match rises with [] => true | r :: _ => s <? r end then
        bind (dt_lt start (utc_dt s)) (fun b =>
        if b then bind (mk_interval s0 s) (fun i => Ok [i]) else Ok [])
      else Ok []
  end.
(** coverage.py:113-124: a trailing rise opens a period up to [end]; [e0] is end.astimezone(utc). *)
Definition trailing_dt (end_ : dt) (e0 : Z) (rises sets : list Z) : pyres (list (Z * Z)) :=
  match last_opt rises with
  | None => Ok []
  | Some r =>
      if match last_opt sets with None => true | Some s => s <? r end then
        bind (dt_lt (utc_dt r) end_) (fun b =>
        if b then bind (mk_interval r e0) (fun i => Ok [i]) else Ok [])
      else Ok []
  end.
(** _get_visible_interval_series for given events, coverage.py:51-125.  The conversion of [end] by
    astimezone comes after the search for events, which refuses naive datetimes; it is modelled by the same
    conversion as from_datetime. *)
Definition visible_dt (start end_ : dt) (maxacc : Z) (ev : events) : pyres (list (Z * Z)) :=
  bind (from_datetime start) (fun s0 => bind (from_datetime end_) (fun e0 =>
  match ev with
  | [] => Ok []
  | _ =>
      if forallb (fun x => is_culm (snd x)) ev
      then bind (mk_interval s0 e0) (fun i => Ok [i])
      else
        let rises := times_of is_rise ev in
        let sets := times_of is_set ev in
        bind (leading_dt start s0 rises sets) (fun a =>
        bind (rise_periods maxacc rises sets) (fun b =>
        bind (trailing_dt end_ e0 rises sets) (fun c => Ok (a ++ b ++ c))))
  end)).
