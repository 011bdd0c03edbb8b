(** Independent specification of the TLE column format, checksum and fields.
    Columns are numbered from 0; character codes are ASCII. *)
From Coq Require Import String Ascii ZArith QArith List Bool.
From Verif Require Import Base Tle_Model.
Import ListNotations.
Open Scope Z_scope.

(** Character classes, as sets of codes. *)
Definition blank (c : Z) : Prop := c = 32.
Definition digit (c : Z) : Prop := 48 <= c <= 57.
Definition upper (c : Z) : Prop := 65 <= c <= 90.
Definition plus (c : Z) : Prop := c = 43.
Definition minus (c : Z) : Prop := c = 45.
Definition point (c : Z) : Prop := c = 46.
Definition blank_or_digit (c : Z) : Prop := blank c \/ digit c.
Definition any_sign (c : Z) : Prop := blank c \/ plus c \/ minus c.

(** Column [k] of the line satisfies [P]; columns [a..b] all satisfy [P]. *)
Definition col (l : pystr) (k : nat) (P : Z -> Prop) : Prop := exists c, nth_error l k = Some c /\ P c.
Definition cols (l : pystr) (a b : nat) (P : Z -> Prop) : Prop :=
  forall k, (a <= k <= b)%nat -> col l k P.

(** First catalogue-number column: blank, digit or a letter other than I and O. *)
Definition catalog_lead (c : Z) : Prop := blank c \/ digit c \/ (upper c /\ c <> 73 /\ c <> 79).

(** Line 1: number, catalogue number and classification, designator, epoch,
    first derivative (signed decimal in columns 33-42), second derivative and drag
    (signed mantissa, exponent sign, exponent digit), type, element number. *)
Record line1_format (l : pystr) : Prop := {
  l1_length : length l = 69%nat;
  l1_number : col l 0 (eq 49);
  l1_blanks : Forall (fun k => col l k blank) [1; 8; 17; 32; 43; 52; 61; 63]%nat;
  l1_catalog : col l 2 catalog_lead /\ cols l 3 6 blank_or_digit;
  l1_class : col l 7 upper;
  l1_designator : cols l 9 13 blank_or_digit /\ cols l 14 16 (fun c => blank c \/ upper c);
  l1_epoch : cols l 18 22 blank_or_digit /\ col l 23 point /\ cols l 24 31 blank_or_digit;
  l1_ndot :
    (col l 33 (fun c => any_sign c \/ c = 48) /\ col l 34 point /\ cols l 35 42 blank_or_digit)
    \/ (col l 33 blank /\ col l 34 any_sign /\ col l 35 point /\ cols l 36 42 blank_or_digit);
  l1_nddot : col l 44 any_sign /\ cols l 45 49 blank_or_digit
             /\ col l 50 (fun c => plus c \/ minus c) /\ col l 51 blank_or_digit;
  l1_bstar : col l 53 any_sign /\ cols l 54 58 blank_or_digit
             /\ col l 59 (fun c => plus c \/ minus c) /\ col l 60 blank_or_digit;
  l1_type : col l 62 blank_or_digit;
  l1_element : cols l 64 67 blank_or_digit
}.

(** A blank-padded ddd.dddd field starting at column [a]. *)
Definition angle_cols (l : pystr) (a : nat) : Prop :=
  cols l a (a + 2) blank_or_digit /\ col l (a + 3) point /\ cols l (a + 4) (a + 7) blank_or_digit.

(** Line 2: number, catalogue number, inclination, node, eccentricity, perigee,
    mean anomaly, mean motion and revolution number. *)
Record line2_format (l : pystr) : Prop := {
  l2_length : length l = 69%nat;
  l2_number : col l 0 (eq 50);
  l2_blanks : Forall (fun k => col l k blank) [1; 7; 16; 25; 33; 42; 51]%nat;
  l2_catalog : col l 2 catalog_lead /\ cols l 3 6 blank_or_digit;
  l2_angles : Forall (angle_cols l) [8; 17; 34; 43]%nat;
  l2_ecc : cols l 26 32 blank_or_digit;
  l2_motion : cols l 52 53 blank_or_digit /\ col l 54 point /\ cols l 55 67 blank_or_digit
}.

(** Modulo-10 checksum: digits count their value, minus signs one. *)
Fixpoint column_sum (n : nat) (l : pystr) : Z :=
  match n, l with
  | S n', c :: r =>
      (if (48 <=? c) && (c <=? 57) then c - 48 else if c =? 45 then 1 else 0) + column_sum n' r
  | _, _ => 0
  end.
Definition checksum_ok (l : pystr) : Prop :=
  exists d, nth_error l 68 = Some (48 + d) /\ 0 <= d <= 9 /\ exists q, column_sum 68 l = 10 * q + d.

(** The list of line pairs, and the sequence of epochs. *)
Inductive pairs_ok (epoch : pystr -> pystr -> pyres Z) : list pystr -> list Z -> Prop :=
| pairs_nil : pairs_ok epoch [] []
| pairs_cons a b r e es :
    line1_format a -> line2_format b -> checksum_ok a -> checksum_ok b ->
    epoch a b = Ok e -> pairs_ok epoch r es -> pairs_ok epoch (a :: b :: r) (e :: es).

(** ** Fields *)
(** Number written by a list of digits, most significant first. *)
Fixpoint positional (ds : pystr) : Z :=
  match ds with [] => 0 | c :: r => (c - 48) * 10 ^ Z.of_nat (length r) + positional r end.

(** Blank-padded unsigned integer. *)
Definition int_field (s : pystr) (n : Z) : Prop :=
  exists k ds, s = repeat 32 k ++ ds /\ ds <> [] /\ Forall digit ds /\ n = positional ds.
(** Blank-padded unsigned decimal: integer digits, a point, fraction digits. *)
Definition decimal_field (s : pystr) (q : Q) : Prop :=
  exists k ip fp, s = repeat 32 k ++ ip ++ 46 :: fp /\ ip ++ fp <> []
    /\ Forall digit ip /\ Forall digit fp
    /\ (q * inject_Z (10 ^ Z.of_nat (length fp)) == inject_Z (positional (ip ++ fp)))%Q.
(** The same with an optional sign. *)
Definition signed_field (s : pystr) (q : Q) : Prop :=
  decimal_field s q
  \/ exists k sgn r q', s = repeat 32 k ++ sgn :: r /\ decimal_field r q'
       /\ (forall x, nth_error r 0 = Some x -> x <> 32)
       /\ ((sgn = 43 /\ (q == q')%Q) \/ (sgn = 45 /\ (q == - q')%Q)).
(** Decimal fraction with an implied leading point. *)
Definition fraction_field (s : pystr) (q : Q) : Prop :=
  s <> [] /\ Forall digit s /\ (q * inject_Z (10 ^ Z.of_nat (length s)) == inject_Z (positional s))%Q.
(** Blank sign, five digits of an implied decimal fraction, signed exponent digit. *)
Definition exponent_field (m e : pystr) (q : Q) : Prop :=
  exists ds x f d, m = 32 :: ds /\ fraction_field ds f /\ digit d
    /\ ((e = [43; d] /\ x = d - 48 /\ (q == f * inject_Z (10 ^ x))%Q)
        \/ (e = [45; d] /\ x = d - 48 /\ (q * inject_Z (10 ^ x) == f)%Q)).

(** Replacing element [k] of a list. *)
Fixpoint replace_at {A} (k : nat) (x : A) (l : list A) : list A :=
  match l, k with
  | [], _ => []
  | _ :: r, O => x :: r
  | y :: r, S k' => y :: replace_at k' x r
  end.

(** Columns [a..b] of a line (inclusive, from 0). *)
Definition columns (l : pystr) (a b : nat) (s : pystr) : Prop :=
  length s = (b + 1 - a)%nat /\ forall k, (k < length s)%nat -> nth_error l (a + k) = nth_error s k.

(** The numbers printed in a pair of lines. *)
Record elements := mk_elements {
  el_catalog : Z; el_ndot : Q; el_nddot : Q; el_bstar : Q; el_type : Z; el_number : Z;
  el_incl : Q; el_raan : Q; el_ecc : Q; el_argp : Q; el_anomaly : Q; el_motion : Q; el_rev : Z }.
Record prints (l1 l2 : pystr) (e : elements) : Prop := {
  pr_catalog : exists s, columns l1 2 6 s /\ int_field s (el_catalog e);
  pr_ndot : exists s, columns l1 33 42 s /\ signed_field s (el_ndot e);
  pr_nddot : exists m x, columns l1 44 49 m /\ columns l1 50 51 x /\ exponent_field m x (el_nddot e);
  pr_bstar : exists m x, columns l1 53 58 m /\ columns l1 59 60 x /\ exponent_field m x (el_bstar e);
  pr_type : exists s, columns l1 62 62 s /\ int_field s (el_type e);
  pr_number : exists s, columns l1 64 67 s /\ int_field s (el_number e);
  pr_incl : exists s, columns l2 8 15 s /\ decimal_field s (el_incl e);
  pr_raan : exists s, columns l2 17 24 s /\ decimal_field s (el_raan e);
  pr_ecc : exists s, columns l2 26 32 s /\ fraction_field s (el_ecc e);
  pr_argp : exists s, columns l2 34 41 s /\ decimal_field s (el_argp e);
  pr_anomaly : exists s, columns l2 43 50 s /\ decimal_field s (el_anomaly e);
  pr_motion : exists s, columns l2 52 62 s /\ decimal_field s (el_motion e);
  pr_rev : exists s, columns l2 63 67 s /\ int_field s (el_rev e)
}.

(** [t] is [s] without its surrounding blanks. *)
Definition trimmed (s t : pystr) : Prop :=
  exists a b, s = repeat 32 a ++ t ++ repeat 32 b
    /\ (forall c, nth_error t 0 = Some c -> c <> 32)
    /\ (forall c, nth_error (rev t) 0 = Some c -> c <> 32).

(** A call succeeded with a given number. *)
Definition returns (x : pyres Q) (q : Q) : Prop := exists r, x = Ok r /\ (r == q)%Q.
