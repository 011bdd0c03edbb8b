(** Model of the two-line-element validators (src/tatc/utils.py:1209-1273) and of
    the TwoLineElements constructor and accessors (src/tatc/schemas/orbit.py:27-292).
    Python strings are lists of code points. *)
From Coq Require Import String Ascii ZArith QArith List Bool.
From Verif Require Import Base.
Import ListNotations.
Open Scope Z_scope.

(** A Python str: its code points. The elements of TwoLineElements.tle, orbit.py:33-34. *)
Definition pystr := list Z.

(** A Python string literal. orbit.py:100-102, 146. *)
Definition lit (s : string) : pystr :=
  map (fun c => Z.of_N (N_of_ascii c)) (list_ascii_of_string s).

(** [s[a:b]] for 0 <= a <= b. utils.py:1247, orbit.py:69-292. *)
Definition slice (a b : nat) (s : pystr) : pystr := firstn (b - a) (skipn a s).

(** [s[k]] for 0 <= k. utils.py:1222-1257, orbit.py:69-292. *)
Definition index {A} (k : nat) (s : list A) : pyres A :=
  match nth_error s k with Some c => Ok c | None => Raise IndexError end.

(** str.isdigit of one character.  Simplified to ASCII digits: the callers
    (utils.py:1248, orbit.py:100) only see characters that already matched an ASCII
    pattern. *)
Definition is_digit (c : Z) : bool := (48 <=? c) && (c <=? 57).

(** ** The two regular expressions (utils.py:1229-1243) *)
Inductive regex :=
| Eps
| Cls (p : Z -> bool)
| Seq (a b : regex)
| Alt (a b : regex).

(** Backtracking matcher: all remainders after a match of a prefix of [s]. utils.py:1235, 1242. *)
Fixpoint run (r : regex) (s : pystr) : list pystr :=
  match r with
  | Eps => [s]
  | Cls p => match s with c :: s' => if p c then [s'] else [] | [] => [] end
  | Seq a b => flat_map (run b) (run a s)
  | Alt a b => run a s ++ run b s
  end.

(** re.match(pattern, s) is not None (a prefix matches), utils.py:1235,1242. *)
Definition re_match (r : regex) (s : pystr) : bool :=
  match run r s with [] => false | _ => true end.

(** Concatenation and {n} repetition. utils.py:1229-1241. *)
Definition seqs (l : list regex) : regex := fold_right Seq Eps l.
(** See above, utils.py:1229-1241. *)
Definition rep (n : nat) (r : regex) : regex := seqs (repeat r n).
(** A literal character and the character classes of the patterns. utils.py:1229-1241. *)
Definition chr (c : Z) : regex := Cls (Z.eqb c).
(** See above, utils.py:1229-1241. *)
Definition sp := chr 32.
(** See above, utils.py:1229-1241. *)
Definition dot := chr 46.
(** A range in a character class, utils.py:1229-1241. *)
Definition between (a b c : Z) : bool := (a <=? c) && (c <=? b).
(** [[ 0-9]] utils.py:1230-1240. *)
Definition p_bd (c : Z) : bool := (c =? 32) || between 48 57 c.
(** [[ 0-9A-HJ-NP-Z]] utils.py:1230, 1238. *)
Definition p_cat (c : Z) : bool :=
  (c =? 32) || between 48 57 c || between 65 72 c || between 74 78 c || between 80 90 c.
(** [[A-Z]] and [[ A-Z]] utils.py:1230. *)
Definition p_AZ (c : Z) : bool := between 65 90 c.
(** See above, utils.py:1231. *)
Definition p_bAZ (c : Z) : bool := (c =? 32) || between 65 90 c.
(** [[ +-]], [[+-]] and [[ 0+-]] utils.py:1232-1233. *)
Definition p_bsign (c : Z) : bool := (c =? 32) || (c =? 43) || (c =? 45).
(** See above, utils.py:1233. *)
Definition p_sign (c : Z) : bool := (c =? 43) || (c =? 45).
(** See above, utils.py:1232. *)
Definition p_b0sign (c : Z) : bool := (c =? 32) || (c =? 48) || (c =? 43) || (c =? 45).

(** line_1_pattern, utils.py:1229-1234. *)
Definition ndot_1 : regex := seqs [Cls p_b0sign; dot; rep 8 (Cls p_bd)].
(** Second alternative of the first derivative field, utils.py:1229-1234. *)
Definition ndot_2 : regex := seqs [sp; Cls p_bsign; dot; rep 7 (Cls p_bd)].
(** The part before it, utils.py:1229-1234. *)
Definition line_1_head : regex :=
  seqs [chr 49; sp; Cls p_cat; rep 4 (Cls p_bd); Cls p_AZ; sp; rep 5 (Cls p_bd);
        rep 3 (Cls p_bAZ); sp; rep 5 (Cls p_bd); dot; rep 8 (Cls p_bd); sp].
(** The part after it, utils.py:1229-1234. *)
Definition line_1_tail : regex :=
  seqs [sp; Cls p_bsign; rep 5 (Cls p_bd); Cls p_sign; Cls p_bd; sp;
        Cls p_bsign; rep 5 (Cls p_bd); Cls p_sign; Cls p_bd; sp;
        Cls p_bd; sp; rep 4 (Cls p_bd); Cls p_bd].
(** The whole of line_1_pattern, utils.py:1229-1234. *)
Definition line_1_pattern : regex := Seq line_1_head (Seq (Alt ndot_1 ndot_2) line_1_tail).

(** line_2_pattern, utils.py:1237-1241. *)
Definition angle_field : regex := seqs [rep 3 (Cls p_bd); dot; rep 4 (Cls p_bd); sp].
(** line_2_pattern, utils.py:1237-1241. *)
Definition line_2_pattern : regex :=
  seqs [chr 50; sp; Cls p_cat; rep 4 (Cls p_bd); sp; angle_field; angle_field;
        rep 7 (Cls p_bd); sp; angle_field; angle_field;
        rep 2 (Cls p_bd); dot; rep 13 (Cls p_bd); Cls p_bd].

(** ** Python number parsing *)

(** str.strip().  Simplified to the space character, the only white space an
    accepted line can contain. orbit.py:105, 146, 161, 228. *)
Fixpoint lstrip (s : pystr) : pystr :=
  match s with c :: r => if c =? 32 then lstrip r else s | [] => [] end.
(** See above, orbit.py:105, 146, 161, 228. *)
Definition strip (s : pystr) : pystr := rev (lstrip (rev (lstrip s))).

(** Decimal digits accumulated from the left; None on a non-digit.
    int of digits, utils.py:1249, 1254, 1256; orbit.py:69-292. *)
Fixpoint digits (acc : Z) (s : pystr) : option Z :=
  match s with
  | [] => Some acc
  | c :: r => if is_digit c then digits (10 * acc + (c - 48)) r else None
  end.

(** An optional sign. orbit.py:69-292 (int and float). *)
Definition split_sign (s : pystr) : bool * pystr :=
  match s with
  | c :: r => if c =? 45 then (true, r) else if c =? 43 then (false, r) else (false, s)
  | [] => (false, s)
  end.

(** int(s) (underscores are not modelled: no accepted line contains one).
    utils.py:1249, 1254, 1256; orbit.py:70, 147, 162, 176, 189, 292. *)
Definition py_int (s : pystr) : pyres Z :=
  let (neg, r) := split_sign (strip s) in
  match r with
  | [] => Raise ValueError
  | _ => match digits 0 r with
         | Some n => Ok (if neg then - n else n)
         | None => Raise ValueError
         end
  end.

(** Split at the first '.'. orbit.py:133-267 (float). *)
Fixpoint split_dot (s : pystr) : pystr * option pystr :=
  match s with
  | [] => ([], None)
  | c :: r => if c =? 46 then ([], Some r)
              else let (a, b) := split_dot r in (c :: a, b)
  end.

(** float(s) as an exact rational (exponents, inf, nan and underscores are not
    modelled: no accepted line contains a letter in a numeric field).
    orbit.py:133, 146, 161, 202, 215, 228, 241, 254, 267. *)
Definition py_float (s : pystr) : pyres Q :=
  let (neg, r) := split_sign (strip s) in
  let (ip, fp) := split_dot r in
  let f := match fp with Some f => f | None => [] end in
  match ip ++ f with
  | [] => Raise ValueError
  | ds => match digits 0 ds with
          | Some n =>
              let q := (inject_Z n / inject_Z (10 ^ Z.of_nat (length f)))%Q in
              Ok (if neg then (- q)%Q else q)
          | None => Raise ValueError
          end
  end.

(** 10 ** n as an exact rational. orbit.py:146-148, 161-163. *)
Definition pow10 (n : Z) : Q :=
  if 0 <=? n then inject_Z (10 ^ n) else (1 / inject_Z (10 ^ (- n)))%Q.

(** ** Validators *)

(** The contribution of one column and the checksum, utils.py:1245-1252. *)
Definition weight (c : Z) : Z := if is_digit c then c - 48 else if c =? 45 then 1 else 0.
(** See above, utils.py:1245-1252. *)
Definition checksum (line : pystr) : Z := (fold_left (fun a c => a + weight c) (firstn 68 line) 0) mod 10.

(** One condition followed by the rest: [if b: raise ValueError]. utils.py:1213, 1222-1257, 1271. *)
Definition guard (b : bool) : pyres unit := if b then Raise ValueError else Ok tt.

(** is_valid_tle, utils.py:1218-1258. *)
Definition valid_pair (a b : pystr) : pyres unit :=
  bind (guard (negb (Nat.eqb (length a) 69))) (fun _ =>
  bind (guard (negb (Nat.eqb (length b) 69))) (fun _ =>
  bind (guard (negb (re_match line_1_pattern a))) (fun _ =>
  bind (guard (negb (re_match line_2_pattern b))) (fun _ =>
  bind (bind (index 68 a) (fun c => py_int [c])) (fun k =>
  bind (guard (negb (k =? checksum a))) (fun _ =>
  bind (bind (index 68 b) (fun c => py_int [c])) (fun k2 =>
  guard (negb (k2 =? checksum b))))))))).
(** The loop of is_valid_tle, utils.py:1218-1258. *)
Fixpoint is_valid_tle (v : list pystr) : pyres unit :=
  match v with
  | [] => Ok tt
  | [a] => bind (guard (negb (Nat.eqb (length a) 69))) (fun _ => Raise IndexError)
  | a :: b :: r => bind (valid_pair a b) (fun _ => is_valid_tle r)
  end.

(** is_even_length_list, utils.py:1209-1215. *)
Definition is_even_length_list (v : list pystr) : pyres unit := guard (Nat.odd (length v)).

Section Oracle.
(** sat_epoch_datetime(Satrec.twoline2rv(l1, l2)) in microseconds: sgp4 is not
    modelled, its result (or exception) is arbitrary. *)
Variable epoch : pystr -> pystr -> pyres Z.

(** The epochs list of is_chronological_tle, utils.py:1265-1270. *)
Fixpoint epochs (v : list pystr) : pyres (list Z) :=
  match v with
  | [] => Ok []
  | [_] => Raise IndexError
  | a :: b :: r => bind (epoch a b) (fun e => bind (epochs r) (fun es => Ok (e :: es)))
  end.
(** all(epochs[:-1] <= epochs[1:]), utils.py:1271. *)
Fixpoint all_le (es : list Z) : bool :=
  match es with
  | a :: ((b :: _) as r) => (a <=? b) && all_le r
  | _ => true
  end.
(** is_chronological_tle, utils.py:1261-1273. *)
Definition is_chronological_tle (v : list pystr) : pyres unit :=
  bind (epochs v) (fun es => guard (negb (all_le es))).

(** pydantic turns a ValueError of a validator into a ValidationError and lets any
    other exception through. orbit.py:33-38. *)
Definition pydantic {A} (x : pyres A) : pyres A :=
  match x with Raise ValueError => Raise ValidationError | _ => x end.

(** TwoLineElements(tle=v), schemas/orbit.py:33-48: min_length, then the three
    validators from left to right; the stored list is the argument. *)
Definition construct_tle (v : list pystr) : pyres (list pystr) :=
  if Nat.ltb (length v) 2 then Raise ValidationError
  else pydantic (bind (is_chronological_tle v) (fun _ =>
                 bind (is_valid_tle v) (fun _ =>
                 bind (is_even_length_list v) (fun _ => Ok v)))).

(** get_epoch, schemas/orbit.py:107-120. *)
Definition get_epoch (v : list pystr) (i : nat) : pyres Z :=
  bind (index (2 * i) v) (fun a => bind (index (2 * i + 1) v) (fun b => epoch a b)).
End Oracle.

(** ** Accessors, schemas/orbit.py:50-292 *)
(** get_tle_count, orbit.py:50-57. *)
Definition get_tle_count (v : list pystr) : nat := Nat.div2 (length v).
(** [self.tle[2*i]] and [self.tle[2*i+1]]. orbit.py:69-189. *)
Definition line1 (v : list pystr) (i : nat) : pyres pystr := index (2 * i) v.
(** See above, orbit.py:202-292. *)
Definition line2 (v : list pystr) (i : nat) : pyres pystr := index (2 * i + 1) v.
(** get_catalog_number, orbit.py:59-70. *)
Definition get_catalog_number v i := bind (line1 v i) (fun l => py_int (slice 2 7 l)).
(** get_classification, orbit.py:72-83. *)
Definition get_classification v i := bind (line1 v i) (fun l => index 7 l).
(** get_international_designator, orbit.py:85-105. *)
Definition all_digits (s : pystr) : bool :=
  match s with [] => false | _ => forallb is_digit s end.
(** get_international_designator, orbit.py:85-105. *)
Definition get_international_designator v i : pyres pystr :=
  bind (line1 v i) (fun l =>
  let year := slice 9 11 l in
  let launch := slice 11 14 l in
  let piece := slice 14 17 l in
  bind (if negb (all_digits year) then Ok []
        else bind (py_int year) (fun y => Ok (if y <? 57 then lit "20" else lit "19")))
  (fun century => Ok (strip (century ++ year ++ lit "-" ++ launch ++ piece)))).
(** get_first_derivative_mean_motion, orbit.py:122-133. *)
Definition get_first_derivative v i := bind (line1 v i) (fun l => py_float (slice 33 43 l)).
(** float("0." + s[a:b].strip()) * 10 ** int(s[b:c]), as in orbit.py:135-163. *)
Definition implied_exp (a b c : nat) (l : pystr) : pyres Q :=
  bind (py_float (lit "0." ++ strip (slice a b l))) (fun m =>
  bind (py_int (slice b c l)) (fun e => Ok (m * pow10 e)%Q)).
(** get_second_derivative_mean_motion, orbit.py:135-148. *)
Definition get_second_derivative v i := bind (line1 v i) (implied_exp 44 50 52).
(** get_b_star, orbit.py:150-163. *)
Definition get_b_star v i := bind (line1 v i) (implied_exp 53 59 61).
(** get_ephemeris_type, orbit.py:165-176. *)
Definition get_ephemeris_type v i := bind (line1 v i) (fun l => bind (index 62 l) (fun c => py_int [c])).
(** get_element_set_number, orbit.py:178-189. *)
Definition get_element_set_number v i := bind (line1 v i) (fun l => py_int (slice 64 68 l)).
(** get_inclination, orbit.py:191-202. *)
Definition get_inclination v i := bind (line2 v i) (fun l => py_float (slice 8 16 l)).
(** get_right_ascension_ascending_node, orbit.py:204-215. *)
Definition get_raan v i := bind (line2 v i) (fun l => py_float (slice 17 25 l)).
(** get_eccentricity, orbit.py:217-228. *)
Definition get_eccentricity v i :=
  bind (line2 v i) (fun l => py_float (lit "0." ++ strip (slice 26 33 l))).
(** get_perigee_argument, orbit.py:230-241. *)
Definition get_perigee_argument v i := bind (line2 v i) (fun l => py_float (slice 34 42 l)).
(** get_mean_anomaly, orbit.py:243-254. *)
Definition get_mean_anomaly v i := bind (line2 v i) (fun l => py_float (slice 43 51 l)).
(** get_mean_motion, orbit.py:256-267. *)
Definition get_mean_motion v i := bind (line2 v i) (fun l => py_float (slice 52 63 l)).
(** get_revolution_number_at_epoch, orbit.py:281-292. *)
Definition get_revolution_number v i := bind (line2 v i) (fun l => py_int (slice 63 68 l)).
