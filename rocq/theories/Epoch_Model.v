(** Model of TLE selection, timeline partition, repeat cycles and observation
    events of TwoLineElements (src/tatc/schemas/orbit.py:391-690).
    Instants and durations are integer microseconds. *)
From Coq Require Import ZArith QArith List Bool.
From Verif Require Import Base Coverage_Model.
Import ListNotations.
Open Scope Z_scope.

(** np.searchsorted(epochs, t, side="left"), orbit.py:416, 428, on a sorted array
    (the constructor rejects unsorted ones): the number of smaller elements. *)
Definition searchsorted (es : list Z) (t : Z) : nat := length (filter (fun e => e <? t) es).

(** get_closest_tle_index for one instant, orbit.py:415-426. *)
Definition closest (es : list Z) (t : Z) : nat :=
  let idx := searchsorted es t in
  if Nat.ltb 0 idx
     && (Nat.eqb idx (length es)
         || (Z.abs (t - nth (idx - 1) es 0) <? Z.abs (t - nth idx es 0)))
  then (idx - 1)%nat else idx.

(** The [at_times] argument: None, a datetime, or a list. orbit.py:392, 404, 415. *)
Inductive at_times := AtNone | AtOne (t : Z) | AtList (ts : list Z).
(** The result, an index or a list of them, orbit.py:393. *)
Inductive indices := IOne (i : nat) | IList (is : list nat).
(** get_closest_tle_index, orbit.py:391-441 (epochs already loaded). *)
Definition get_closest_tle_index (es : list Z) (a : at_times) : indices :=
  match a with
  | AtNone => IOne 0
  | AtOne t => IOne (closest es t)
  | AtList ts => IList (map (closest es) ts)
  end.

(** The lazily loaded epochs of orbit.py:406-413: [decode] is get_epoch applied to
    every TLE of the current field value; the cache is never invalidated. *)
Section EpochCache.
Context {T : Type} (decode : T -> list Z).
(** The object: its field and its __dict__ entry, orbit.py:407, 413. *)
Record orbit_state := mk_orbit { field : T; tle_epochs : option (list Z) }.
(** Field assignment (orbit.py:33) and the query (orbit.py:391). *)
Inductive action := Assign (v : T) | Query (a : at_times).
(** One step of a history, orbit.py:404-441. *)
Definition step (s : orbit_state) (x : action) : orbit_state * option indices :=
  match x with
  | Assign v => (mk_orbit v (tle_epochs s), None)
  | Query AtNone => (s, Some (IOne 0))
  | Query a =>
      let es := match tle_epochs s with Some es => es | None => decode (field s) end in
      (mk_orbit (field s) (Some es), Some (get_closest_tle_index es a))
  end.
End EpochCache.

(** [sorted_epochs[1:] + (sorted_epochs[:-1] - sorted_epochs[1:]) / 2],
    orbit.py:461-463, with Python's half-to-even timedelta division. *)
Fixpoint midpoints (es : list Z) : list Z :=
  match es with
  | a :: ((b :: _) as r) => (b + timedelta_half (a - b)) :: midpoints r
  | _ => []
  end.

(** enumerate. orbit.py:464. *)
Definition enumerate {A} (l : list A) : list (nat * A) := combine (seq 0 (length l)) l.

(** np.sort. orbit.py:459. *)
Definition np_sort (es : list Z) : list Z := sort_by (fun x => x) es.

(** partition_by_tle_index, orbit.py:443-472; [argsort] is np.argsort (whose order
    among equal epochs is unspecified). *)
Definition partition_by_tle_index (argsort : list Z -> list nat) (es : list Z) (start end_ : Z)
    : list Z * list nat :=
  if Nat.leb (length es) 1 then ([start; end_], [0; 0]%nat)
  else
    let tle_i := argsort es in
    let sel := filter (fun p => (start <? snd p) && (snd p <? end_)) (enumerate (midpoints (np_sort es))) in
    (start :: map snd sel ++ [end_],
     closest es start :: map (fun p => nth (fst p) tle_i 0%nat) sel ++ [closest es end_]).

(** ** Repeat cycle, orbit.py:474-552 *)
(** A candidate culmination: instant, position error norm, velocity error norm
    (skyfield propagation is an oracle). orbit.py:526-542. *)
Record candidate := mk_cand { c_time : Z; c_dpos : Q; c_dvel : Q }.
(** The effective search arguments. orbit.py:476-479. *)
Record search := mk_search { s_dpos : Q; s_dvel : Q; s_elev : Q; s_duration : Z }.
(** config.rc defaults (src/tatc/config.py:31-49). *)
Record rc := mk_rc { rc_search : search; rc_lazy : bool }.
(** The five optional arguments, orbit.py:476-480. *)
Record cycle_args := mk_args {
  a_dpos : option Q; a_dvel : option Q; a_elev : option Q; a_duration : option Z; a_lazy : option bool }.
(** [if x is None: x = default], orbit.py:496-507. *)
Definition default {A} (o : option A) (d : A) : A := match o with Some x => x | None => d end.
(** Loading the defaults, orbit.py:495-507. *)
Definition effective (cfg : rc) (a : cycle_args) : search :=
  mk_search (default (a_dpos a) (s_dpos (rc_search cfg))) (default (a_dvel a) (s_dvel (rc_search cfg)))
    (default (a_elev a) (s_elev (rc_search cfg))) (default (a_duration a) (s_duration (rc_search cfg))).

(** The strict comparisons of orbit.py:538-541. *)
Definition Qltb (x y : Q) : bool := negb (Qle_bool y x).

(** The search, orbit.py:513-548: culminations found between epoch + 10 minutes and
    epoch + duration above the elevation, first one with both errors in tolerance;
    zero when there is none. *)
Definition search_cycle (find : Q -> Z -> list candidate) (epoch : Z) (s : search) : Z :=
  match List.find (fun c => Qltb (c_dpos c) (s_dpos s) && Qltb (c_dvel c) (s_dvel s))
          (find (s_elev s) (s_duration s)) with
  | Some c => c_time c - epoch
  | None => 0
  end.

(** get_repeat_cycle, orbit.py:474-552, on an object whose [repeat_cycle] entry is
    [cache]: new cache and answer. *)
Definition get_repeat_cycle (cfg : rc) (find : Q -> Z -> list candidate) (epoch : Z)
    (cache : option Z) (a : cycle_args) : option Z * option Z :=
  let s := effective cfg a in
  let lazy := default (a_lazy a) (rc_lazy cfg) in
  let r := match (if lazy then cache else None) with
           | Some r => r
           | None => search_cycle find epoch s
           end in
  let cache' := match (if lazy then cache else None) with Some _ => cache | None => Some r end in
  (cache', if 0 <? r then Some r else None).

(** A history of calls on one object. orbit.py:474-552. *)
Fixpoint calls (cfg : rc) (find : Q -> Z -> list candidate) (epoch : Z) (cache : option Z)
    (l : list cycle_args) : list (option Z) :=
  match l with
  | [] => []
  | a :: r => let (c', ans) := get_repeat_cycle cfg find epoch cache a in ans :: calls cfg find epoch c' r
  end.

(** ** Orbit track, orbit.py:554-616 *)
(** epoch + sign(offset) * mod(|offset|, cycle), orbit.py:596-609. *)
Definition fold_time (epoch cycle t : Z) : Z :=
  epoch + Z.sgn (t - epoch) * (Z.abs (t - epoch) mod cycle).
(** The (TLE index, instant) pairs at which SGP4 is evaluated for the requested
    times; [cycle] is get_repeat_cycle() when [try_repeat]. orbit.py:554-616. *)
Definition orbit_track (es : list Z) (try_repeat : bool) (cycle : option Z) (ts : list Z) : list (nat * Z) :=
  if Nat.ltb 1 (length es) then combine (map (closest es) ts) ts
  else match try_repeat, cycle with
       | true, Some c => map (fun t => (0%nat, fold_time (nth 0 es 0) c t)) ts
       | _, _ => map (fun t => (0%nat, t)) ts
       end.

(** ** Observation events, orbit.py:618-690 *)
Section Events.
(** [find_events i t0 t1]: skyfield's events of TLE [i] between two instants, as the
    two parallel lists of instants and event codes. *)
Variable find_events : nat -> Z -> Z -> list Z * list Z.

(** Segments (part_ts[i], part_ts[i+1], tle_is[i]), orbit.py:645-654. *)
Fixpoint segments (ts : list Z) (is : list nat) : list (nat * Z * Z) :=
  match ts, is with
  | t0 :: ((t1 :: _) as r), i :: is' => (i, t0, t1) :: segments r is'
  | _, _ => []
  end.

(** Several TLEs, orbit.py:643-660. *)
Definition multi_events (parts : list Z * list nat) : list Z * list Z :=
  let ev := map (fun s => find_events (fst (fst s)) (snd (fst s)) (snd s)) (segments (fst parts) (snd parts)) in
  (flat_map fst ev, flat_map snd ev).

(** ceil(a / b); the binary64 quotient of two microsecond counts below 2^53 has
    the same ceiling as the exact one. orbit.py:671. *)
Definition ceil_div (a b : Z) : Z := - ((- a) / b).

(** Boolean-mask indexing. orbit.py:684-685. *)
Definition mask {A} (keep : list bool) (l : list A) : list A := map snd (filter fst (combine keep l)).

(** One TLE with a repeat cycle shorter than the window, orbit.py:664-686. *)
Definition repeat_events (cycle start end_ : Z) : list Z * list Z :=
  let base := find_events 0%nat start (start + cycle) in
  let n := Z.to_nat (ceil_div (end_ - start) cycle) in
  if Nat.eqb (length (fst base)) 0 then ([], [])
  else
    let times := flat_map (fun i => map (fun t => t + Z.of_nat i * cycle) (fst base)) (seq 0 n) in
    let evs := flat_map (fun _ : nat => snd base) (seq 0 n) in
    let keep := map (fun t => t <=? end_) times in
    (mask keep times, mask keep evs).

(** get_observation_events, orbit.py:618-690. *)
Definition get_observation_events (argsort : list Z -> list nat) (es : list Z) (try_repeat : bool)
    (cycle : option Z) (start end_ : Z) : list Z * list Z :=
  if Nat.ltb 1 (length es) then multi_events (partition_by_tle_index argsort es start end_)
  else match try_repeat, cycle with
       | true, Some c => if c <? end_ - start then repeat_events c start end_
                         else find_events 0%nat start end_
       | _, _ => find_events 0%nat start end_
       end.
End Events.
