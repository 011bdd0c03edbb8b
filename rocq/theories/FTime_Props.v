(** Theorems about binary64 arithmetic on durations (C176-C178, C184). *)
From Coq Require Import ZArith Reals Lra Lia Bool List.
From Flocq Require Import Core IEEE754.BinarySingleNaN.
From Verif Require Import Base Epoch_Model Float_Model Float_Spec FGrid_Model FTime_Model FTime_Spec FTime_Proofs FTime_Proofs2.
Import ListNotations.
Open Scope Z_scope.

(** ** C176: quotients of durations. *)
(** The number of repeat cycles laid over a window is the exact ceiling: rounding neither adds nor drops one. *)
Theorem c176_cycles_exact : forall window cycle, 0 <= window < 2 ^ 53 -> 0 < cycle < 2 ^ 53 ->
  is_ceiling window cycle (number_cycles window cycle).
Proof. exact number_cycles_exact. Qed.
Print Assumptions c176_cycles_exact.
(** So the exact model of repeated cycles (Epoch_Model) counts the cycles as binary64 does. *)
Theorem c176_cycles_model : forall window cycle, 0 <= window < 2 ^ 53 -> 0 < cycle < 2 ^ 53 ->
  number_cycles window cycle = ceil_div window cycle.
Proof. exact number_cycles_model. Qed.
Print Assumptions c176_cycles_model.
Example c176_cycles_witness : number_cycles 1000000 300000 = 4 /\ number_cycles 900000 300000 = 3
  /\ number_cycles 9007199254740991 3 = 3002399751580331 /\ 0 <= 9007199254740991 < 2 ^ 53.
Proof. split; [vm_compute; reflexivity|]. split; [vm_compute; reflexivity|]. split; [vm_compute; reflexivity|lia]. Qed.

(** The epoch handed to SGP4 determines the microsecond of the orbit's epoch, for 65536 days from 1950. *)
Theorem c176_epoch_recovered : forall epoch, 0 <= epoch < 65536 * 86400000000 ->
  finite (epoch_days epoch) /\ ZnearestE (val (epoch_days epoch) * 86400000000) = epoch.
Proof. intros e H. exact (conj (proj1 (epoch_days_err e H)) (epoch_days_recover e H)). Qed.
Print Assumptions c176_epoch_recovered.
(** Later epochs give larger numbers of days. *)
Theorem c176_epoch_increasing : forall e e', 0 <= e < e' -> e' < 65536 * 86400000000 ->
  (val (epoch_days e) < val (epoch_days e'))%R.
Proof. exact epoch_days_mono. Qed.
Print Assumptions c176_epoch_increasing.
(** The bound is needed: after 70000 days (year 2141) neighbouring microseconds share a number of days. *)
Theorem c176_epoch_late_collide : exists e e', e < e' /\ epoch_days e = epoch_days e'.
Proof.
  exists (70000 * 86400000000 + 2), (70000 * 86400000000 + 3). split; [lia|]. apply B2SF_inj. vm_compute. reflexivity.
Qed.
Print Assumptions c176_epoch_late_collide.
Example c176_epoch_witness : 0 <= 27000 * 86400000000 + 1 < 65536 * 86400000000. Proof. lia. Qed.

(** ** C177: mean durations of points. *)
(** Whatever accurate algorithm adds the seconds, the reported mean is the true mean to a microsecond, and
    exactly the true mean when that is a whole number of microseconds. *)
Theorem c177_mean_near : forall fsum l, accurate_sum fsum -> point_durations l ->
  exists m, reported_mean fsum l = Ok m /\ near_mean l m.
Proof. intros f l A (H1 & H2 & H3 & H4). exact (reported_mean_near f l A H1 H2 H3 H4). Qed.
Print Assumptions c177_mean_near.
(** Adding from the left and the compensated summation of pandas are such algorithms. *)
Theorem c177_plain_accurate : accurate_sum plain_sum.
Proof. exact plain_accurate. Qed.
Print Assumptions c177_plain_accurate.
Theorem c177_kahan_accurate : accurate_sum kahan_sum.
Proof. exact kahan_accurate. Qed.
Print Assumptions c177_kahan_accurate.
(** A point seen once, or always for as long, is reported with that duration. *)
Theorem c177_equal_durations : forall fsum a n, accurate_sum fsum -> point_durations (repeat a (S n)) ->
  reported_mean fsum (repeat a (S n)) = Ok a.
Proof. exact equal_durations. Qed.
Print Assumptions c177_equal_durations.
Example c177_witness : point_durations [100; 200; 201] /\ reported_mean plain_sum [100; 200; 201] = Ok 167
  /\ reported_mean kahan_sum [100; 200; 201] = Ok 167 /\ point_durations (repeat 333333 4).
Proof.
  repeat split; try (vm_compute; reflexivity); try discriminate; try (repeat constructor; lia); cbn; lia.
Qed.

(** ** C178: weighted mean durations of cells. *)
Theorem c178_average_near : forall fsum l, accurate_sum fsum -> cell_durations l ->
  exists m, reported_average fsum l = Ok m /\ near_average l m.
Proof. intros f l A (H1 & H2 & H3 & H4). exact (reported_average_near f l A H1 H2 H3 H4). Qed.
Print Assumptions c178_average_near.
(** Reducing to points and then gridding to cells rounds twice: the cell's duration is within two microseconds
    of the mean over all observations in the cell. *)
Theorem c178_cell_near : forall fsum fsum' groups, accurate_sum fsum -> accurate_sum fsum' -> groups <> [] ->
  Forall point_durations groups -> all_count groups <= 2 ^ 40 ->
  Z.of_nat (length groups) * (all_total groups + all_count groups) <= 2 ^ 26 * 1000000 * all_count groups ->
  exists m, reported_cell fsum fsum' groups = Ok m
    /\ (Rabs (IZR m - IZR (all_total groups) / IZR (all_count groups)) < 2)%R.
Proof. exact pipeline_near. Qed.
Print Assumptions c178_cell_near.
Example c178_witness : cell_durations [(100, 1); (200, 2)] /\ reported_average kahan_sum [(100, 1); (200, 2)] = Ok 167
  /\ Forall point_durations [[100; 200]; [400]] /\ reported_cell kahan_sum plain_sum [[100; 200]; [400]] = Ok 233.
Proof.
  split; [|split; [vm_compute; reflexivity|split; [|vm_compute; reflexivity]]].
  - repeat split; try (repeat constructor; cbn; lia); cbn; lia.
  - repeat constructor; try discriminate; cbn; lia.
Qed.

(** ** C184: the epoch of merged observations. *)
(** Timestamps in nanoseconds are too large for binary64: the epoch of an observation that is merged with no
    other changes (here from a microsecond after midnight by 24 nanoseconds), *)
Theorem c184_single_refuted : exists a, merged_epoch kahan_sum [a] <> a /\ merged_epoch plain_sum [a] <> a.
Proof. exists 1704067200000001000. split; vm_compute; discriminate. Qed.
Print Assumptions c184_single_refuted.
(** though by less than a microsecond. *)
Theorem c184_single_near : forall fsum a, fsum = plain_sum \/ fsum = kahan_sum -> 0 <= a <= 2 ^ 61 ->
  (Rabs (IZR (merged_epoch fsum [a]) - IZR a) <= 258)%R.
Proof. exact single_epoch. Qed.
Print Assumptions c184_single_near.
(** The epoch of [n] merged observations, of times up to the year 2043, is within 2049 (n + 1) nanoseconds of
    the mean of their epochs, whatever accurate algorithm adds them, *)
Theorem c184_merged_near : forall fsum l, accurate_sum fsum -> l <> [] -> Z.of_nat (length l) <= 2 ^ 20 -> Forall (fun a => 0 <= a <= 2 ^ 61) l ->
  (Rabs (IZR (merged_epoch fsum l) - IZR (zsum l) / IZR (Z.of_nat (length l))) <= 2049 * (IZR (Z.of_nat (length l)) + 1))%R.
Proof. exact merged_epoch_near. Qed.
Print Assumptions c184_merged_near.
(** and lies within any interval that contains their epochs with that margin, such as the merged observation. *)
Theorem c184_merged_inside : forall fsum l lo hi, accurate_sum fsum -> l <> [] -> Z.of_nat (length l) <= 2 ^ 20 -> Forall (fun a => 0 <= a <= 2 ^ 61) l ->
  Forall (fun a => lo + 2049 * (Z.of_nat (length l) + 1) <= a <= hi - 2049 * (Z.of_nat (length l) + 1)) l ->
  lo <= merged_epoch fsum l <= hi.
Proof. exact merged_epoch_inside. Qed.
Print Assumptions c184_merged_inside.
Example c184_witness : merged_epoch kahan_sum [1704067200000001000] = 1704067200000001024
  /\ merged_epoch kahan_sum [1704067200000001000; 1704067260000001000; 1704067290000005000] = 1704067250000002304
  /\ Forall (fun a => 0 <= a <= 2 ^ 61) [1704067200000001000; 1704067260000001000; 1704067290000005000]
  /\ Forall (fun a => 1704067100000000000 + 2049 * (3 + 1) <= a <= 1704067300000000000 - 2049 * (3 + 1)) [1704067200000001000; 1704067260000001000; 1704067290000005000].
Proof. split; [vm_compute; reflexivity|]. split; [vm_compute; reflexivity|]. split; repeat constructor; lia. Qed.
