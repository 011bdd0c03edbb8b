(** A solver, concrete skies, and the rows of compute_dop. *)
From Coq Require Import Reals ZArith List Bool Lra Lia Sorting.Permutation.
From Verif Require Import Base BaseFacts RBase RFacts RTrigFacts Geom_Model Dop_Model Dop_Spec Dop_Proofs Dop_Proofs2.
Import ListNotations.
Open Scope R_scope.

(** *** Cramer's rule is a solver *)
Definition det3 (m : nat -> nat -> R) : R :=
  m 0%nat 0%nat * (m 1%nat 1%nat * m 2%nat 2%nat - m 1%nat 2%nat * m 2%nat 1%nat)
  - m 0%nat 1%nat * (m 1%nat 0%nat * m 2%nat 2%nat - m 1%nat 2%nat * m 2%nat 0%nat)
  + m 0%nat 2%nat * (m 1%nat 0%nat * m 2%nat 1%nat - m 1%nat 1%nat * m 2%nat 0%nat).
Definition skip (r k : nat) : nat := if Nat.ltb k r then k else S k.
Definition adj (M : mat4) : mat4 := fun i j => (if Nat.even (i + j) then 1 else -1) * det3 (fun a b => M (skip j a) (skip i b)).
Definition cramer (M : mat4) : option mat4 := if Req_EM_T (det4 M) 0 then None else Some (fun i j => adj M i j / det4 M).
Lemma det_mul (M X : mat4) : det4 (fun i j => sum4 (fun k => M i k * X k j)) = det4 M * det4 X.
Proof. unfold det4, sum4. ring. Qed.
Lemma adj_mul M i j : (i < 4)%nat -> (j < 4)%nat -> sum4 (fun k => M i k * adj M k j) = if Nat.eqb i j then det4 M else 0.
Proof. intros I J. unfold sum4, adj, det3, det4, skip. four i; four j; cbn; ring. Qed.
Lemma cramer_solver : solver cramer.
Proof.
  intro M. unfold cramer. destruct (Req_EM_T (det4 M) 0) as [Z|N].
  - intros X H. pose proof (det_mul M X) as D. rewrite Z, Rmult_0_l in D. unfold det4 in D at 1. rewrite !H in D by lia. cbn in D. lra.
  - intros i j I J. transitivity (sum4 (fun k => M i k * adj M k j) / det4 M); [unfold sum4; field; exact N|]. rewrite adj_mul by assumption.
    destruct (Nat.eqb i j); field; exact N.
Qed.

(** *** Four satellites: overhead, and to the north, east and south on the horizon *)
Definition four_sky : list sight := [mk_sight (PI / 2) 0 1; mk_sight 0 0 1; mk_sight 0 (PI / 2) 1; mk_sight 0 PI 1].
Definition four_inverse : mat4 := fun i j =>
  match i with
  | O => match j with O => 1 / 2 | _ => 0 end
  | S O => match j with S O => 3 / 2 | S (S O) => 1 / 2 | S (S (S _)) => - 1 / 2 | _ => 0 end
  | S (S O) => match j with S O => 1 / 2 | S (S O) => 3 / 2 | S (S (S _)) => - 1 / 2 | _ => 0 end
  | _ => match j with S O => - 1 / 2 | S (S O) => - 1 / 2 | S (S (S _)) => 1 / 2 | _ => 0 end
  end.
Lemma four_inverse_ok : inverse (normal four_sky) four_inverse.
Proof.
  intros i j I J. unfold sum4, normal, four_sky, direction. cbn [fold_right s_el s_az].
  four i; four j; cbn; rewrite ?cos_0, ?sin_0, ?cos_PI, ?sin_PI, ?cos_PI2, ?sin_PI2; lra.
Qed.
Lemma four_seen : seen_of 0 four_sky four_sky.
Proof.
  pose proof PI_RGT_0. assert (Z : radians 0 = 0) by (unfold radians; lra).
  repeat (apply seen_yes; [unfold in_view; cbn; lra|]). constructor.
Qed.
Lemma four_apart : apart four_sky.
Proof. intros s I. repeat (destruct I as [<-|I]; [cbn; lra|]). destruct I. Qed.
Lemma four_gdop solve : solver solve -> forall mn, (mn < 4)%Z -> dop solve 0 GDOP mn four_sky = Ok (Some 2).
Proof.
  intros S mn L. rewrite (dop_value solve S 0 GDOP mn four_sky four_sky four_inverse four_seen four_apart L four_inverse_ok) by discriminate.
  f_equal. f_equal. cbn. replace (1 / 2 + 3 / 2 + 3 / 2 + 1 / 2) with (2 * 2) by lra. apply sqrt_square. lra.
Qed.
Lemma threshold_wrong : exists solve me m mn all l X, solver solve /\ seen_of me all l /\ apart l /\ m <> Invalid
  /\ Z.of_nat (length l) = mn /\ inverse (normal l) X /\ dop solve me m mn all = Ok None.
Proof.
  exists cramer, 0, GDOP, 4%Z, four_sky, four_sky, four_inverse. split; [exact cramer_solver|]. split; [exact four_seen|]. split; [exact four_apart|].
  split; [discriminate|]. split; [reflexivity|]. split; [exact four_inverse_ok|]. apply (dop_few cramer 0 GDOP 4 four_sky four_sky four_seen). cbn. lia.
Qed.

(** *** Rows *)
Lemma dop_rows_lemma : forall solve Sat (sky : Sat -> Z -> sight) times lat lon sats me m mn rows,
  compute_dop solve sky times lat lon sats me m mn = Ok rows ->
  Forall2 (fun t r => d_time r = t /\ d_geom r = (lat, lon) /\ dop solve me m mn (map (fun s => sky s t) sats) = Ok (d_dop r)) times rows.
Proof.
  intros solve Sat sky times lat lon sats me m mn rows E. unfold compute_dop in E. destruct (mapM _ times) as [ds|] eqn:Q; [|discriminate]. cbn in E. injection E as <-.
  revert ds Q. induction times as [|t times IH]; intros ds Q; cbn in Q; [injection Q as <-; constructor|].
  destruct (Nat.eqb (length sats) 0); [discriminate|]. destruct (dop solve me m mn (map (fun s => sky s t) sats)) as [d|] eqn:D; [|discriminate]. cbn in Q.
  destruct (mapM _ times) as [ds'|] eqn:Q'; [|discriminate]. cbn in Q. injection Q as <-. cbn. constructor; [auto|]. now apply IH.
Qed.
Lemma dop_total_lemma : forall solve Sat (sky : Sat -> Z -> sight) times lat lon sats me m mn, sats <> [] -> m <> Invalid ->
  exists rows, compute_dop solve sky times lat lon sats me m mn = Ok rows.
Proof.
  intros solve Sat sky times lat lon sats me m mn N NI. unfold compute_dop. destruct sats as [|s sats]; [congruence|]. cbn [length Nat.eqb].
  assert (T : forall l, exists d, dop solve me m mn l = Ok d).
  { intro l. unfold dop. destruct (_ <=? _)%Z; [eauto|]. destruct (h_rows _); [|destruct m; eauto; contradiction]. destruct (solve _); [|eauto]. destruct m; eauto; contradiction. }
  assert (M : exists ds, mapM (fun t => dop solve me m mn (map (fun s => sky s t) (s :: sats))) times = Ok ds).
  { induction times as [|t times [ds IH]]; cbn [mapM]; [eauto|]. destruct (T (map (fun s => sky s t) (s :: sats))) as [d ->]. cbn [bind]. rewrite IH. cbn. eauto. }
  destruct M as [ds ->]. cbn. eauto.
Qed.
Lemma dop_no_satellites : forall solve Sat (sky : Sat -> Z -> sight) times lat lon me m mn, times <> [] ->
  compute_dop solve sky times lat lon [] me m mn = Raise IndexError.
Proof. intros. destruct times; [congruence|reflexivity]. Qed.
Lemma dop_geometry_wrong : exists solve (sky : nat -> Z -> sight) times lat lon sats me m mn rows r, solver solve
  /\ compute_dop solve sky times lat lon sats me m mn = Ok rows /\ In r rows /\ d_geom r <> (lon, lat).
Proof.
  exists cramer, (fun _ _ => mk_sight 0 0 1), [0%Z], 40, (-75), [0%nat], 0, GDOP, 3%Z.
  destruct (dop_total_lemma cramer nat (fun _ _ => mk_sight 0 0 1) [0%Z] 40 (-75) [0%nat] 0 GDOP 3%Z) as [rows E]; [discriminate|discriminate|].
  pose proof (dop_rows_lemma _ _ _ _ _ _ _ _ _ _ _ E) as F. inversion F as [|t r ? ? (_ & G & _) _ Q1 Q2]; subst. exists (r :: l'), r.
  split; [exact cramer_solver|]. split; [exact E|]. split; [now left|]. rewrite G. intro K. injection K as K _. lra.
Qed.
Lemma dop_geometry_iff : forall solve Sat (sky : Sat -> Z -> sight) times lat lon sats me m mn rows r,
  compute_dop solve sky times lat lon sats me m mn = Ok rows -> In r rows -> d_geom r = (lon, lat) <-> lat = lon.
Proof.
  intros solve Sat sky times lat lon sats me m mn rows r E I. pose proof (dop_rows_lemma _ _ _ _ _ _ _ _ _ _ _ E) as F.
  assert (G : d_geom r = (lat, lon)). { clear - F I. induction F as [|t r' ? ? (_ & G & _) _ IH]; [destruct I|]. destruct I as [<-|I]; auto. }
  rewrite G. split; intro K; [congruence|]. now rewrite K.
Qed.
Lemma dop_no_satellites_ex : exists times : list Z, times <> [] /\ forall solve (sky : sight -> Z -> sight) lat lon me m mn,
  compute_dop solve sky times lat lon [] me m mn = Raise IndexError.
Proof. exists [0%Z]. split; [discriminate|reflexivity]. Qed.
