(** Property theorems C01-C05: two-line elements. *)
From Coq Require Import String Ascii ZArith QArith List Bool Lia Sorting.Sorted.
From Verif Require Import Base BaseFacts Tle_Model Tle_Spec Tle_Proofs Tle_Proofs2 Tle_Odd_Proofs.
Import ListNotations.
Open Scope Z_scope.

(** The International Space Station elements of the schema's documentation. *)
Definition iss : list pystr :=
  [lit "1 25544U 98067A   21156.30527927  .00003432  00000-0  70541-4 0  9993";
   lit "2 25544  51.6455  41.4969 0003508  68.0432  78.3395 15.48957534286754"].
(** An epoch oracle that reads the day columns. *)
Definition day_epoch (a _ : pystr) : pyres Z := py_int (slice 18 23 a).

(** *** C01 *)
Theorem c01_tle_acceptance : forall epoch v w,
  construct_tle epoch v = Ok w <->
  w = v /\ (2 <= length v)%nat /\ exists es, pairs_ok epoch v es /\ Sorted Z.le es.
Proof. exact construct_iff. Qed.
Print Assumptions c01_tle_acceptance.

Example c01_witness : construct_tle day_epoch iss = Ok iss
  /\ construct_tle day_epoch (iss ++ iss) = Ok (iss ++ iss).
Proof. split; vm_compute; reflexivity. Qed.

(** *** C02 *)
Theorem c02_digit_corruption_rejected : forall epoch v w k l j c d x,
  construct_tle epoch v = Ok w ->
  nth_error v k = Some l -> nth_error l j = Some c -> digit c -> digit d -> d <> c ->
  construct_tle epoch (replace_at k (replace_at j d l) v) <> Ok x.
Proof. exact corrupt_rejected. Qed.
Print Assumptions c02_digit_corruption_rejected.

Theorem c02_digit_corruption_validation_error : forall epoch v w k l j c d,
  (forall a b e, epoch a b = Raise e -> e = ValueError) ->
  construct_tle epoch v = Ok w ->
  nth_error v k = Some l -> nth_error l j = Some c -> digit c -> digit d -> d <> c ->
  construct_tle epoch (replace_at k (replace_at j d l) v) = Raise ValidationError.
Proof. exact corrupt_error. Qed.
Print Assumptions c02_digit_corruption_validation_error.

Example c02_witness : exists l, nth_error iss 1 = Some l /\ nth_error l 11 = Some 46
  /\ nth_error l 12 = Some 54 /\ digit 54 /\ digit 55
  /\ (forall a b e, day_epoch a b = Raise e -> e = ValueError).
Proof.
  eexists. split; [reflexivity|]. split; [reflexivity|]. split; [reflexivity|].
  split; [unfold digit; lia|]. split; [unfold digit; lia|].
  intros a b e H. unfold day_epoch in H. pose proof (only_ve_int (slice 18 23 a)) as V.
  rewrite H in V. exact V.
Qed.

(** The guarantee is sharp: swapping two digits goes unnoticed (inclination
    51.6455 becomes 51.6545). *)
Theorem c02_digit_swap_accepted :
  exists v l, nth_error v 1 = Some l /\ construct_tle day_epoch v = Ok v
    /\ let l' := replace_at 13 53 (replace_at 14 52 l) in
       l' <> l /\ construct_tle day_epoch (replace_at 1 l' v) = Ok (replace_at 1 l' v).
Proof.
  exists iss. eexists. split; [reflexivity|]. split; [vm_compute; reflexivity|].
  split; [discriminate|vm_compute; reflexivity].
Qed.
Print Assumptions c02_digit_swap_accepted.

(** *** C03 *)
Theorem c03_errors_are_validation_errors_partial : forall epoch v,
  (forall a b e, epoch a b = Raise e -> e = ValueError) ->
  Nat.even (length v) = true ->
  construct_tle epoch v = Ok v \/ construct_tle epoch v = Raise ValidationError.
Proof. exact construct_total. Qed.
Print Assumptions c03_errors_are_validation_errors_partial.

Example c03_witness : Nat.even (length iss) = true
  /\ construct_tle day_epoch [lit "garbage"; lit ""] = Raise ValidationError.
Proof. split; reflexivity. Qed.

(** An odd number of lines is never accepted; it escapes as an IndexError exactly when sgp4 reads every complete pair. *)
Theorem c03_odd_exact_partial : forall epoch, (forall a b e, epoch a b = Raise e -> e = ValueError) -> forall v,
  Nat.odd (length v) = true -> (2 <= length v)%nat ->
  (construct_tle epoch v = Raise IndexError <->
     forall i a b, nth_error v (2 * i) = Some a -> nth_error v (2 * i + 1) = Some b -> exists e, epoch a b = Ok e)
  /\ (construct_tle epoch v = Raise IndexError \/ construct_tle epoch v = Raise ValidationError).
Proof. exact odd_exact. Qed.
Print Assumptions c03_odd_exact_partial.

(** A stray third line escapes as an IndexError instead of a ValidationError. *)
Theorem c03_errors_are_validation_errors_refuted :
  exists epoch v, (forall a b e, epoch a b = Raise e -> e = ValueError)
    /\ construct_tle epoch v = Raise IndexError.
Proof.
  exists (fun _ _ => Ok 0), (iss ++ [lit ""]). split; [discriminate|]. vm_compute. reflexivity.
Qed.
Print Assumptions c03_errors_are_validation_errors_refuted.

(** *** C04 *)
Theorem c04_accessors_partial : forall epoch v w i e,
  construct_tle epoch v = Ok w -> (i < get_tle_count v)%nat ->
  exists l1 l2, nth_error v (2 * i) = Some l1 /\ nth_error v (2 * i + 1) = Some l2 /\
  (prints l1 l2 e ->
    get_catalog_number v i = Ok (el_catalog e)
    /\ returns (get_first_derivative v i) (el_ndot e)
    /\ returns (get_second_derivative v i) (el_nddot e)
    /\ returns (get_b_star v i) (el_bstar e)
    /\ get_ephemeris_type v i = Ok (el_type e)
    /\ get_element_set_number v i = Ok (el_number e)
    /\ returns (get_inclination v i) (el_incl e)
    /\ returns (get_raan v i) (el_raan e)
    /\ returns (get_eccentricity v i) (el_ecc e)
    /\ returns (get_perigee_argument v i) (el_argp e)
    /\ returns (get_mean_anomaly v i) (el_anomaly e)
    /\ returns (get_mean_motion v i) (el_motion e)
    /\ get_revolution_number v i = Ok (el_rev e)).
Proof.
  intros epoch v w i e H Hi. destruct (accepted_lines epoch v w i H Hi) as (l1 & l2 & E1 & E2 & _).
  exists l1, l2. split; [assumption|]. split; [assumption|]. exact (accessors_lemma v i l1 l2 e E1 E2).
Qed.
Print Assumptions c04_accessors_partial.

Theorem c04_index_past_the_end : forall epoch v w i,
  construct_tle epoch v = Ok w -> (get_tle_count v <= i)%nat ->
  line1 v i = Raise IndexError /\ line2 v i = Raise IndexError.
Proof. exact accepted_past. Qed.
Print Assumptions c04_index_past_the_end.

Theorem c04_eccentricity_range : forall epoch v w i l,
  construct_tle epoch v = Ok w -> nth_error v (2 * i + 1) = Some l -> cols l 26 32 digit ->
  exists e, get_eccentricity v i = Ok e /\ (0 <= e)%Q /\ (e < 1)%Q.
Proof. exact eccentricity_range. Qed.
Print Assumptions c04_eccentricity_range.

Ltac colmn := split; [reflexivity|intros [|[|[|[|[|[|[|[|[|[|[|k]]]]]]]]]]] Hk; simpl in Hk |- *; reflexivity || lia].
Ltac digs := match goal with
  | |- Forall digit [] => constructor
  | |- Forall digit _ => apply all_digits_spec; [discriminate|reflexivity]
  end.
(** The documented elements print thirteen numbers. *)
Example c04_witness : exists l1 l2, iss = [l1; l2] /\
  prints l1 l2 (mk_elements 25544 (3432 # 100000000) 0 (70541 # 1000000000) 0 999
    (516455 # 10000) (414969 # 10000) (3508 # 10000000) (680432 # 10000) (783395 # 10000)
    (1548957534 # 100000000) 28675).
Proof.
  eexists. eexists. split; [reflexivity|]. split.
  - exists (lit "25544"). split; [colmn|]. exists 0%nat, (lit "25544"). repeat split; try discriminate; digs.
  - exists (lit " .00003432"). split; [colmn|]. left. exists 1%nat, [], (lit "00003432"). repeat split; try discriminate; digs.
  - exists (lit " 00000"), (lit "-0"). split; [colmn|]. split; [colmn|].
    exists (lit "00000"), 0, 0%Q, 48. split; [reflexivity|]. split; [split; [discriminate|split; [digs|reflexivity]]|].
    split; [unfold digit; lia|]. right. repeat split; reflexivity.
  - exists (lit " 70541"), (lit "-4"). split; [colmn|]. split; [colmn|].
    exists (lit "70541"), 4, (70541 # 100000), 52. split; [reflexivity|]. split; [split; [discriminate|split; [digs|reflexivity]]|].
    split; [unfold digit; lia|]. right. repeat split; reflexivity.
  - exists (lit "0"). split; [colmn|]. exists 0%nat, (lit "0"). repeat split; try discriminate; digs.
  - exists (lit " 999"). split; [colmn|]. exists 1%nat, (lit "999"). repeat split; try discriminate; digs.
  - exists (lit " 51.6455"). split; [colmn|]. exists 1%nat, (lit "51"), (lit "6455"). repeat split; try discriminate; digs.
  - exists (lit " 41.4969"). split; [colmn|]. exists 1%nat, (lit "41"), (lit "4969"). repeat split; try discriminate; digs.
  - exists (lit "0003508"). split; [colmn|]. split; [discriminate|]. split; [digs|reflexivity].
  - exists (lit " 68.0432"). split; [colmn|]. exists 1%nat, (lit "68"), (lit "0432"). repeat split; try discriminate; digs.
  - exists (lit " 78.3395"). split; [colmn|]. exists 1%nat, (lit "78"), (lit "3395"). repeat split; try discriminate; digs.
  - exists (lit "15.48957534"). split; [colmn|]. exists 0%nat, (lit "15"), (lit "48957534"). repeat split; try discriminate; digs.
  - exists (lit "28675"). split; [colmn|]. exists 0%nat, (lit "28675"). repeat split; try discriminate; digs.
Qed.

(** A negative drag term passes validation but get_b_star raises ValueError. *)
Definition negative_drag : list pystr :=
  [lit "1 25544U 98067A   21156.30527927  .00003432  00000-0 -70541-4 0  9994";
   lit "2 25544  51.6455  41.4969 0003508  68.0432  78.3395 15.48957534286754"].
Theorem c04_negative_drag_refuted : exists v,
  construct_tle day_epoch v = Ok v /\ get_b_star v 0 = Raise ValueError.
Proof. exists negative_drag. split; vm_compute; reflexivity. Qed.
Print Assumptions c04_negative_drag_refuted.

(** A letter-prefixed catalogue number passes validation but cannot be read; the
    catalogue numbers of the two lines need not agree either. *)
Definition alpha5 : list pystr :=
  [lit "1 A5544U 98067A   21156.30527927  .00003432  00000-0  70541-4 0  9991";
   lit "2 25544  51.6455  41.4969 0003508  68.0432  78.3395 15.48957534286754"].
Theorem c04_alpha5_refuted : exists v,
  construct_tle day_epoch v = Ok v /\ get_catalog_number v 0 = Raise ValueError.
Proof. exists alpha5. split; vm_compute; reflexivity. Qed.
Print Assumptions c04_alpha5_refuted.

(** *** C05 *)
Theorem c05_international_designator : forall epoch v w i l,
  construct_tle epoch v = Ok w -> nth_error v (2 * i) = Some l ->
  exists yy launch piece d,
    columns l 9 10 yy /\ columns l 11 13 launch /\ columns l 14 16 piece
    /\ get_international_designator v i = Ok d
    /\ ((Forall digit yy /\ positional yy < 57 /\ trimmed (lit "20" ++ yy ++ lit "-" ++ launch ++ piece) d)
        \/ (Forall digit yy /\ 57 <= positional yy /\ trimmed (lit "19" ++ yy ++ lit "-" ++ launch ++ piece) d)
        \/ (~ Forall digit yy /\ trimmed (yy ++ lit "-" ++ launch ++ piece) d)).
Proof. exact designator_lemma. Qed.
Print Assumptions c05_international_designator.

Example c05_witness : get_international_designator iss 0 = Ok (lit "1998-067A").
Proof. vm_compute. reflexivity. Qed.
