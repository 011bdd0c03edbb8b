(** Planes, distinctness and symmetry of Walker constellations; names; ground tracks of trains. *)
From Coq Require Import Reals ZArith List Bool Lra Lia Psatz.
From Verif Require Import Base BaseFacts RBase RFacts Orbit_Model Orbit_Spec Anomaly_Proofs Orbit_Proofs Orbit_Proofs2
  AnomalyInj_Proofs Const_Model Const_Spec Names_Proofs Const_Proofs.
Import ListNotations.
Open Scope R_scope.

(** ** Angles *)
Lemma not_same_small x y : 0 < Rabs (x - y) < 360 -> ~ same_degrees x y.
Proof.
  intros [H1 H2] [k E]. assert (D : x - y = 360 * IZR k) by lra. rewrite D in *.
  destruct (Z.eq_dec k 0) as [->|K]; [rewrite Rmult_0_r, Rabs_R0 in H1; lra|].
  rewrite Rabs_mult, (Rabs_pos_eq 360), <- abs_IZR in H2 by lra.
  assert (1 <= IZR (Z.abs k)) by (apply IZR_le; lia). lra.
Qed.
Lemma same_degrees_cancel x a b : same_degrees (x + a) (x + b) -> same_degrees a b.
Proof. intros [k E]. exists k. lra. Qed.
Lemma advanced_node sun a b o o' : lead_ok o -> advanced sun a b o o' ->
  exists x y, node_of o' = Some y /\ same_degrees y (x + b) /\
    (match o with LCirc c => x = c_raan c | LSso s => x = sso_raan sun s | LKep k => x = c_raan (k_circ k)
     | LTle _ l => exists s r, l = s :: r /\ x = e_node s * (180 / PI) end).
Proof.
  destruct o as [c|s|k|n l]; destruct o' as [c'|s'|k'|n' l']; simpl; intros V A; try contradiction.
  - exists (c_raan c), (c_raan c'). tauto.
  - exists (sso_raan sun s), (c_raan c'). tauto.
  - exists (c_raan (k_circ k)), (c_raan (k_circ k')). tauto.
  - destruct A as [_ A]. inversion A as [E|u v lu lv U F]; subst; [contradiction|].
    exists (e_node u * (180 / PI)), (e_node v * (180 / PI)). split; [reflexivity|]. split; [|eauto].
    assert (S : same_radians (e_node v) (e_node u + b * (PI / 180))) by apply U.
    apply same_radians_degrees in S. replace (e_node u * (180 / PI) + b) with ((e_node u + b * (PI / 180)) * (180 / PI)); [exact S|].
    pose proof PI_RGT_0. field. lra.
Qed.
Lemma advanced_node' sun a b o o' : lead_ok o -> advanced sun a b o o' ->
  exists y, node_of o' = Some y /\ same_degrees y (base_node sun o + b).
Proof.
  intros V A. destruct (advanced_node sun a b o o' V A) as (x & y & E & S & X). exists y. split; [assumption|].
  destruct o; simpl; try (now subst x). destruct X as (u & r & -> & ->). exact S.
Qed.

(** Two advances of one orbit coincide only when the advances agree (bound orbits, e <= 1/2). *)
Lemma advanced_coincide sun o a b a' b' o1 o2 : lead_ok o -> injective_ok o ->
  advanced sun a b o o1 -> advanced sun a' b' o o2 -> coincide o1 o2 -> same_degrees a a' /\ same_degrees b b'.
Proof.
  destruct o as [c|s|k|n l]; destruct o1 as [c1|s1|k1|n1 l1]; destruct o2 as [c2|s2|k2|n2 l2]; simpl; intros V IV A B C; try contradiction.
  - destruct A as (_ & _ & _ & A1 & A2). destruct B as (_ & _ & _ & B1 & B2). destruct C as [C1 C2].
    split.
    + apply (same_degrees_cancel (circ_mean_anomaly c)). eapply same_degrees_trans; [apply same_degrees_sym, A1|]. eapply same_degrees_trans; eassumption.
    + apply (same_degrees_cancel (c_raan c)). eapply same_degrees_trans; [apply same_degrees_sym, A2|]. eapply same_degrees_trans; eassumption.
  - destruct A as (_ & _ & _ & A1 & A2). destruct B as (_ & _ & _ & B1 & B2). destruct C as [C1 C2].
    split.
    + apply (same_degrees_cancel (s_nu s)). eapply same_degrees_trans; [apply same_degrees_sym, A1|]. eapply same_degrees_trans; eassumption.
    + apply (same_degrees_cancel (sso_raan sun s)). eapply same_degrees_trans; [apply same_degrees_sym, A2|]. eapply same_degrees_trans; eassumption.
  - destruct A as (_ & _ & _ & _ & _ & A1 & A2). destruct B as (_ & _ & _ & _ & _ & B1 & B2). destruct C as [C1 C2].
    split.
    + assert (T : same_degrees (mean_anomaly_to_true_anomaly (kep_mean_anomaly k + a) (k_ecc k)) (mean_anomaly_to_true_anomaly (kep_mean_anomaly k + a') (k_ecc k))).
      { eapply same_degrees_trans; [apply same_degrees_sym, A1|]. eapply same_degrees_trans; eassumption. }
      destruct T as [w T]. destruct V as [V _]. apply kep_valid_spec in V as (_ & V4 & _).
      destruct (anomaly_laws_lemma (k_ecc k) (kep_mean_anomaly k + a') w) as (_ & _ & _ & _ & L & _). rewrite <- L in T.
      exists w. destruct (Rtotal_order (kep_mean_anomaly k + a) (kep_mean_anomaly k + a' + 360 * IZR w)) as [H|[H|H]].
      * exfalso. apply (m2t_increasing (k_ecc k)) in H; [|lra]. lra.
      * lra.
      * exfalso. apply (m2t_increasing (k_ecc k)) in H; [|lra]. lra.
    + apply (same_degrees_cancel (c_raan (k_circ k))). eapply same_degrees_trans; [apply same_degrees_sym, A2|]. eapply same_degrees_trans; eassumption.
  - destruct A as [_ A]. destruct B as [_ B].
    inversion A as [E|u v lu lv U F]; subst; [contradiction|]. inversion B as [|u' v' lu' lv' U' F']; subst.
    inversion C as [|x y lx ly X Y]; subst. destruct X as [X1 X2].
    assert (U1 : same_radians (e_mo v) (e_mo u + a * (PI / 180))) by apply U.
    assert (U2 : same_radians (e_node v) (e_node u + b * (PI / 180))) by apply U.
    assert (W1 : same_radians (e_mo v') (e_mo u + a' * (PI / 180))) by apply U'.
    assert (W2 : same_radians (e_node v') (e_node u + b' * (PI / 180))) by apply U'.
    assert (G : forall x y z p q, same_radians x (z + p * (PI / 180)) -> same_radians y (z + q * (PI / 180)) -> same_radians x y -> same_degrees p q).
    { intros x y z p q [k1 E1] [k2 E2] [k3 E3]. exists (k3 + k2 - k1)%Z. rewrite minus_IZR, plus_IZR.
      pose proof PI_RGT_0 as P. apply Rmult_eq_reg_r with (PI / 180); [|lra]. 
      assert (p * (PI / 180) = q * (PI / 180) + 2 * PI * (IZR k3 + IZR k2 - IZR k1)) by (rewrite E1, E2 in E3; lra). rewrite H. field. }
    split; eapply G; eassumption.
Qed.

Section Fix.
Context {I : Type}.
Variable sun : Z -> R.

Lemma wdr_same (w : @walker I) p q : walker_ok w -> (0 <= p < w_planes w)%Z -> (0 <= q < w_planes w)%Z ->
  same_degrees (wdr w p) (wdr w q) -> p = q.
Proof.
  intros [W1 W2] Hp Hq H. destruct (Z.eq_dec p q) as [|N]; [assumption|exfalso]. revert H. apply not_same_small.
  unfold wdr. set (c := match w_config w with Delta => 360 | Star => 180 end).
  assert (C : 0 < c <= 360) by (unfold c; destruct (w_config w); lra).
  assert (P0 : 0 < IZR (w_planes w)) by (apply IZR_lt; lia).
  rewrite <- Rmult_minus_distr_r, <- minus_IZR, Rabs_mult, <- abs_IZR.
  assert (A1 : 1 <= IZR (Z.abs (p - q))) by (apply IZR_le; lia).
  assert (A2 : IZR (Z.abs (p - q)) <= IZR (w_planes w) - 1) by (rewrite <- minus_IZR; apply IZR_le; lia).
  assert (D : 0 < c / IZR (w_planes w)) by (apply Rdiv_lt_0_compat; lra). rewrite (Rabs_pos_eq (c / _)) by lra.
  split; [nra|]. apply Rlt_le_trans with (IZR (w_planes w) * (c / IZR (w_planes w))); [apply Rmult_lt_compat_r; lra|].
  replace (IZR (w_planes w) * (c / IZR (w_planes w))) with c by (field; lra). lra.
Qed.

Lemma walker_distinct_lemma (w : @walker I) ms : lead_ok (w_orbit w) -> injective_ok (w_orbit w) -> walker_ok w ->
  walker_members sun w = Ok ms ->
  forall i j m m', i <> j -> nth_error ms i = Some m -> nth_error ms j = Some m' -> ~ coincide (mb_orbit m) (mb_orbit m').
Proof.
  intros V IV W E. destruct (walker_lemma sun w V W) as (ms' & E' & L & N). rewrite E in E'. injection E' as <-.
  intros i j m m' Hij Hi Hj C.
  assert (Bi : (0 <= Z.of_nat i < w_number w)%Z) by (assert (i < length ms)%nat by (apply nth_error_Some; rewrite Hi; discriminate); lia).
  assert (Bj : (0 <= Z.of_nat j < w_number w)%Z) by (assert (j < length ms)%nat by (apply nth_error_Some; rewrite Hj; discriminate); lia).
  apply N in Hi as (_ & _ & Ai). apply N in Hj as (_ & _ & Aj).
  destruct (advanced_coincide sun _ _ _ _ _ _ _ V IV Ai Aj C) as [Ca Cb].
  assert (P : (Z.of_nat i / per_plane w = Z.of_nat j / per_plane w)%Z) by (eapply wdr_same; eauto; now apply plane_bound).
  rewrite P in Ca. destruct (per_plane_lemma w W) as [K _].
  pose proof (Z.mod_pos_bound (Z.of_nat i) (per_plane w) ltac:(lia)) as Mi. pose proof (Z.mod_pos_bound (Z.of_nat j) (per_plane w) ltac:(lia)) as Mj.
  pose proof (Z.div_mod (Z.of_nat i) (per_plane w) ltac:(lia)). pose proof (Z.div_mod (Z.of_nat j) (per_plane w) ltac:(lia)).
  set (si := (Z.of_nat i mod per_plane w)%Z) in *. set (sj := (Z.of_nat j mod per_plane w)%Z) in *.
  assert (S : si <> sj) by lia. revert Ca. apply not_same_small. unfold wdm.
  replace (_ - _) with (IZR (si - sj) * (360 / IZR (per_plane w))) by (rewrite minus_IZR; ring).
  assert (P0 : 0 < IZR (per_plane w)) by (apply IZR_lt; lia).
  assert (A1 : 1 <= IZR (Z.abs (si - sj))) by (apply IZR_le; lia).
  assert (A2 : IZR (Z.abs (si - sj)) <= IZR (per_plane w) - 1) by (rewrite <- minus_IZR; apply IZR_le; lia).
  assert (D : 0 < 360 / IZR (per_plane w)) by (apply Rdiv_lt_0_compat; lra).
  rewrite Rabs_mult, <- abs_IZR, (Rabs_pos_eq (360 / _)) by lra. split; [nra|].
  apply Rlt_le_trans with (IZR (per_plane w) * (360 / IZR (per_plane w))); [apply Rmult_lt_compat_r; lra|].
  right. field. lra.
Qed.

(** ** Number of planes *)
Definition used_planes (w : @walker I) : Z := ((w_number w - 1) / per_plane w + 1)%Z.

Lemma walker_planes_lemma (w : @walker I) ms nodes : lead_ok (w_orbit w) -> walker_ok w ->
  walker_members sun w = Ok ms -> map (fun m => node_of (mb_orbit m)) ms = map Some nodes ->
  plane_count nodes (Z.to_nat (used_planes w)).
Proof.
  intros V W E EN. destruct (walker_lemma sun w V W) as (ms' & E' & L & N). rewrite E in E'. injection E' as <-.
  destruct (per_plane_lemma w W) as [K B]. pose proof W as [W1 W2].
  assert (U : (1 <= used_planes w <= w_planes w)%Z).
  { unfold used_planes. pose proof (plane_bound w (w_number w - 1) W ltac:(lia)). lia. }
  assert (NX : forall i x, nth_error nodes i = Some x -> (Z.of_nat i < w_number w)%Z /\ same_degrees x (base_node sun (w_orbit w) + wdr w (Z.of_nat i / per_plane w))).
  { intros i x Hx. assert (Hm : nth_error (map (fun m => node_of (mb_orbit m)) ms) i = Some (Some x)) by (rewrite EN, nth_error_map, Hx; reflexivity).
    rewrite nth_error_map in Hm. destruct (nth_error ms i) as [m|] eqn:Em; [|discriminate]. simpl in Hm. injection Hm as Hm.
    pose proof (nth_error_Some ms i) as NS. rewrite Em in NS. assert (i < length ms)%nat by (apply NS; discriminate).
    apply N in Em as (_ & _ & A). destruct (advanced_node' sun _ _ _ _ V A) as (y & Ey & S). rewrite Hm in Ey. injection Ey as ->. split; [lia|assumption]. }
  assert (LN : length nodes = length ms) by (rewrite <- (map_length (@Some R) nodes), <- EN, map_length; reflexivity).
  exists (map (fun p => base_node sun (w_orbit w) + wdr w (Z.of_nat p)) (seq 0 (Z.to_nat (used_planes w)))).
  split; [now rewrite map_length, seq_length|]. split; [|split].
  - intros i j x y Hij Hx Hy C. rewrite nth_error_map in Hx, Hy.
    destruct (nth_error (seq 0 _) i) as [a|] eqn:Ea; [|discriminate]. destruct (nth_error (seq 0 _) j) as [b|] eqn:Eb; [|discriminate].
    simpl in Hx, Hy. injection Hx as <-. injection Hy as <-.
    assert (La : (i < Z.to_nat (used_planes w))%nat) by (rewrite <- (seq_length (Z.to_nat (used_planes w)) 0); apply nth_error_Some; rewrite Ea; discriminate).
    assert (Lb : (j < Z.to_nat (used_planes w))%nat) by (rewrite <- (seq_length (Z.to_nat (used_planes w)) 0); apply nth_error_Some; rewrite Eb; discriminate).
    apply (nth_error_nth _ _ 0%nat) in Ea, Eb. rewrite seq_nth in Ea, Eb by assumption. subst a b. simpl in C.
    apply same_degrees_cancel in C. apply wdr_same in C; [lia|assumption|lia|lia].
  - intros x Hx. apply In_nth_error in Hx as [i Hi]. apply NX in Hi as [Bi S].
    eexists. split; [|exact S]. apply in_map_iff. exists (Z.to_nat (Z.of_nat i / per_plane w)).
    pose proof (Z.div_pos (Z.of_nat i) (per_plane w) ltac:(lia) ltac:(lia)).
    split; [rewrite Z2Nat.id by lia; reflexivity|]. apply in_seq.
    assert ((Z.of_nat i / per_plane w <= (w_number w - 1) / per_plane w)%Z) by (apply Z.div_le_mono; lia).
    unfold used_planes. lia.
  - intros r Hr. apply in_map_iff in Hr as (p & <- & Hp). apply in_seq in Hp.
    set (i := Z.to_nat (Z.of_nat p * per_plane w)).
    assert (Hi : (Z.of_nat p * per_plane w < w_number w)%Z).
    { assert (Q : (Z.of_nat p <= (w_number w - 1) / per_plane w)%Z) by (unfold used_planes in Hp; lia).
      pose proof (Z.mul_div_le (w_number w - 1) (per_plane w) ltac:(lia)). nia. }
    assert (Li : (i < length nodes)%nat) by (unfold i; lia).
    destruct (nth_error nodes i) as [x|] eqn:Ex; [|apply nth_error_None in Ex; lia].
    exists x. split; [eapply nth_error_In; eassumption|]. apply NX in Ex as [_ S].
    unfold i in S. rewrite Z2Nat.id in S by lia. rewrite Z.div_mul in S by lia. exact S.
Qed.

Lemma walker_nodes (w : @walker I) ms : lead_ok (w_orbit w) -> walker_ok w -> walker_members sun w = Ok ms ->
  exists nodes, map (fun m => node_of (mb_orbit m)) ms = map Some nodes.
Proof.
  intros V W E. destruct (walker_lemma sun w V W) as (ms' & E' & L & N). rewrite E in E'. injection E' as <-.
  assert (F : Forall (fun m => exists y, node_of (mb_orbit m) = Some y) ms).
  { apply Forall_forall. intros m Hm. apply In_nth_error in Hm as [i Hi]. apply N in Hi as (_ & _ & A).
    destruct (advanced_node' sun _ _ _ _ V A) as (y & Ey & _). eauto. }
  clear - F. induction F as [|m ms [y Ey] F IH]; [exists []; reflexivity|]. destruct IH as [ys IH]. exists (y :: ys). simpl. now rewrite Ey, IH.
Qed.

(** ** Closing of the delta pattern *)
Lemma walker_closes_lemma (w : @walker I) ms : lead_ok (w_orbit w) -> walker_ok w -> w_config w = Delta ->
  (exists q, w_number w = q * w_planes w)%Z -> walker_members sun w = Ok ms ->
  exists sigma : nat -> nat,
    (forall i, (i < length ms)%nat -> (sigma i < length ms)%nat)
    /\ (forall i j, (i < length ms)%nat -> (j < length ms)%nat -> sigma i = sigma j -> i = j)
    /\ (forall i m m', nth_error ms i = Some m -> nth_error ms (sigma i) = Some m' ->
         exists a b a' b', advanced sun a b (w_orbit w) (mb_orbit m) /\ advanced sun a' b' (w_orbit w) (mb_orbit m')
           /\ same_degrees a' (a + 360 * IZR (w_spacing w) / IZR (w_number w)) /\ same_degrees b' (b + 360 / IZR (w_planes w))).
Proof.
  intros V W D [q Q] E. destruct (walker_lemma sun w V W) as (ms' & E' & L & N). rewrite E in E'. injection E' as <-.
  destruct (per_plane_lemma w W) as [K B]. pose proof W as [W1 W2].
  assert (KQ : per_plane w = q) by nia. rewrite KQ in *. set (P := w_planes w) in *. set (F := w_spacing w) in *.
  set (sg := fun i : Z => let p := (i / q)%Z in let s := (i mod q)%Z in
     if (p + 1 <? P)%Z then ((p + 1) * q + s)%Z else ((s + F) mod q)%Z).
  assert (DM : forall i, (0 <= i < w_number w)%Z -> (i = q * (i / q) + i mod q /\ 0 <= i mod q < q /\ 0 <= i / q < P)%Z).
  { intros i Hi. pose proof (Z.div_mod i q ltac:(lia)). pose proof (Z.mod_pos_bound i q ltac:(lia)). pose proof (plane_bound w i W Hi) as PB. rewrite KQ in PB. fold P in PB. lia. }
  assert (R : forall i, (0 <= i < w_number w)%Z -> (0 <= sg i < w_number w)%Z).
  { intros i Hi. destruct (DM i Hi) as (D1 & D2 & D3). unfold sg. cbv zeta. destruct (Z.ltb_spec (i / q + 1) P).
    - assert ((i / q + 1) * q + q <= P * q)%Z by nia. nia.
    - pose proof (Z.mod_pos_bound (i mod q + F) q ltac:(lia)). nia. }
  exists (fun i => Z.to_nat (sg (Z.of_nat i))). split; [|split].
  - intros i Hi. pose proof (R (Z.of_nat i) ltac:(lia)). lia.
  - intros i j Hi Hj S. pose proof (R (Z.of_nat i) ltac:(lia)) as Ri. pose proof (R (Z.of_nat j) ltac:(lia)) as Rj.
    apply Z2Nat.inj in S; [|lia|lia]. destruct (DM (Z.of_nat i) ltac:(lia)) as (D1 & D2 & D3). destruct (DM (Z.of_nat j) ltac:(lia)) as (E1 & E2 & E3).
    unfold sg in S. cbv zeta in S.
    set (pi := (Z.of_nat i / q)%Z) in *. set (pj := (Z.of_nat j / q)%Z) in *. set (si := (Z.of_nat i mod q)%Z) in *. set (sj := (Z.of_nat j mod q)%Z) in *.
    destruct (Z.ltb_spec (pi + 1) P); destruct (Z.ltb_spec (pj + 1) P).
    + destruct (Z.div_mod_unique q (pi + 1) (pj + 1) si sj) as [X Y]; [lia|lia|lia|].
      assert (pi = pj) by lia. lia.
    + pose proof (Z.mod_pos_bound (sj + F) q ltac:(lia)). nia.
    + pose proof (Z.mod_pos_bound (si + F) q ltac:(lia)). nia.
    + assert (pi = pj) by lia. pose proof (Z.div_mod (si + F) q ltac:(lia)). pose proof (Z.div_mod (sj + F) q ltac:(lia)).
      destruct (Z.div_mod_unique q (- ((si + F) / q)) (- ((sj + F) / q)) si sj) as [X Y]; [lia|lia|lia|].
      assert (pi = pj) by lia. lia.
  - intros i m m' Hi Hs.
    assert (Bi : (0 <= Z.of_nat i < w_number w)%Z) by (assert (i < length ms)%nat by (apply nth_error_Some; rewrite Hi; discriminate); lia).
    pose proof (R _ Bi) as Rs. destruct (DM _ Bi) as (D1 & D2 & D3).
    apply N in Hi as (_ & _ & Ai). apply N in Hs as (_ & _ & As). rewrite Z2Nat.id in As by lia.
    eexists _, _, _, _. split; [exact Ai|]. split; [exact As|].
    unfold wdm, wdr. rewrite D, KQ. fold P F.
    set (p := (Z.of_nat i / q)%Z) in *. set (s := (Z.of_nat i mod q)%Z) in *.
    assert (Q0 : 0 < IZR q) by (apply IZR_lt; lia). assert (P0 : 0 < IZR P) by (apply IZR_lt; lia).
    assert (T0 : IZR (w_number w) = IZR q * IZR P) by (rewrite Q, mult_IZR; reflexivity).
    unfold sg. cbv zeta. fold p s. destruct (Z.ltb_spec (p + 1) P).
    + rewrite Z.add_comm, Z.div_add, Z.mod_add, Z.div_small, Z.mod_small by lia. rewrite Z.add_0_l, plus_IZR.
      split; [apply (eq_ind _ (same_degrees _) (same_degrees_refl _))|apply (eq_ind _ (same_degrees _) (same_degrees_refl _))]; ring.
    + pose proof (Z.mod_pos_bound (s + F) q ltac:(lia)) as MB. rewrite Z.div_small, Z.mod_small by (rewrite ?Z.mod_small by lia; lia).
      assert (pp : p = (P - 1)%Z) by lia. rewrite pp, minus_IZR, T0. pose proof (Z.div_mod (s + F) q ltac:(lia)) as DD.
      assert (DR : IZR ((s + F) mod q) = IZR s + IZR F - IZR q * IZR ((s + F) / q)).
      { rewrite <- plus_IZR, <- mult_IZR, <- minus_IZR. f_equal. lia. }
      rewrite DR. split.
      * exists (- ((s + F) / q))%Z. rewrite opp_IZR. field. lra.
      * exists (-1)%Z. field. lra.
Qed.
End Fix.

(** ** Uniqueness of the plane count *)
Lemma plane_count_le nodes k k' : plane_count nodes k -> plane_count nodes k' -> (k <= k')%nat.
Proof.
  intros (r & L & D & A & B) (r' & L' & D' & A' & B').
  set (f := fun x => rmod x 360).
  assert (Fs : forall x y, same_degrees x y <-> f x = f y).
  { intros x y. split.
    - intro H. apply rmod_eqm_eq; [lra|]. now apply same_degrees_eqm.
    - intro H. eapply same_degrees_trans; [apply same_degrees_sym, same_degrees_rmod|]. unfold f in H. rewrite H. apply same_degrees_rmod. }
  assert (ND : NoDup (map f r)).
  { apply NoDup_nth_error. intros i j Hi E. rewrite map_length in Hi. rewrite !nth_error_map in E.
    destruct (nth_error r i) as [x|] eqn:Ex; [|apply nth_error_None in Ex; lia].
    destruct (nth_error r j) as [y|] eqn:Ey; [|discriminate]. simpl in E. injection E as E. apply Fs in E.
    destruct (lt_eq_lt_dec i j) as [[H|H]|H]; [|assumption|]; exfalso.
    - exact (D i j x y H Ex Ey E).
    - exact (D j i y x H Ey Ex (same_degrees_sym _ _ E)). }
  rewrite <- L, <- L', <- (map_length f r), <- (map_length f r'). apply NoDup_incl_length; [assumption|].
  intros z Hz. apply in_map_iff in Hz as (x & <- & Hx). destruct (B x Hx) as (n & Hn & Sn). destruct (A' n Hn) as (y & Hy & Sy).
  apply in_map_iff. exists y. split; [|assumption]. apply Fs. eapply same_degrees_trans; [apply same_degrees_sym, Sy|exact Sn].
Qed.
Lemma plane_count_unique nodes k k' : plane_count nodes k -> plane_count nodes k' -> k = k'.
Proof. intros A B. apply Nat.le_antisymm; eapply plane_count_le; eassumption. Qed.

Definition walker_54 : @walker Z := mk_walker [87%Z] (LCirc circ_a) [1%Z] Delta 5 4 1.
Lemma walker_54_ok : walker_ok walker_54. Proof. unfold walker_ok, walker_54. simpl. lia. Qed.
Lemma walker_planes_refuted_lemma sun : exists (w : @walker Z) ms nodes,
  make_walker w = Ok w /\ lead_ok (w_orbit w) /\ walker_members sun w = Ok ms
  /\ map (fun m => node_of (mb_orbit m)) ms = map Some nodes /\ ~ plane_count nodes (Z.to_nat (w_planes w)).
Proof.
  assert (V : lead_ok (w_orbit walker_54)) by exact circ_a_valid.
  destruct (walker_lemma sun walker_54 V walker_54_ok) as (ms & E & _). destruct (walker_nodes sun walker_54 ms V walker_54_ok E) as [nodes EN].
  exists walker_54, ms, nodes. split; [reflexivity|]. split; [exact V|]. split; [exact E|]. split; [exact EN|].
  intro C. pose proof (walker_planes_lemma sun walker_54 ms nodes V walker_54_ok E EN) as C3.
  pose proof (plane_count_unique _ _ _ C C3) as X. vm_compute in X. discriminate.
Qed.

Lemma used_planes_full {I} (w : @walker I) : walker_ok w -> (used_planes w = w_planes w <-> (w_planes w - 1) * per_plane w < w_number w)%Z.
Proof.
  intro W. destruct (per_plane_lemma w W) as [K B]. pose proof W as [W1 W2]. unfold used_planes.
  pose proof (Z.div_mod (w_number w - 1) (per_plane w) ltac:(lia)). pose proof (Z.mod_pos_bound (w_number w - 1) (per_plane w) ltac:(lia)).
  pose proof (plane_bound w (w_number w - 1) W ltac:(lia)). split; nia.
Qed.

(** Requested plane count: exactly when one fewer plane of full size would not hold all satellites;
    in particular when the planes divide the satellites evenly. *)
Lemma walker_planes_iff_lemma {I} sun (w : @walker I) ms nodes : lead_ok (w_orbit w) -> walker_ok w ->
  walker_members sun w = Ok ms -> map (fun m => node_of (mb_orbit m)) ms = map Some nodes ->
  forall k, ((k - 1) * w_planes w < w_number w <= k * w_planes w)%Z ->
  (plane_count nodes (Z.to_nat (w_planes w)) <-> (w_planes w - 1) * k < w_number w)%Z.
Proof.
  intros V W E EN k Hk. destruct (per_plane_lemma w W) as [K B]. pose proof W as [W1 W2].
  assert (k = per_plane w) by nia. subst k.
  pose proof (walker_planes_lemma sun w ms nodes V W E EN) as C. rewrite <- used_planes_full by assumption.
  split; intro H.
  - pose proof (plane_count_unique _ _ _ H C) as X. assert (1 <= used_planes w)%Z; [|lia].
    unfold used_planes. pose proof (Z.div_pos (w_number w - 1) (per_plane w)). lia.
  - now rewrite <- H.
Qed.

(** ** Names of members *)
Lemma names_lemma {I} (ms : list (@member I)) name n : Z.of_nat (length ms) = n ->
  (forall i m, nth_error ms i = Some m -> mb_name m = zero_pad name n (Z.of_nat i + 1)) ->
  (forall i m, nth_error ms i = Some m -> exists d, mb_name m = name ++ [32%Z] ++ d
     /\ Forall (fun c => 48 <= c <= 57)%Z d /\ decimal_value d = (Z.of_nat i + 1)%Z)
  /\ (forall i j m m', (i < j)%nat -> nth_error ms i = Some m -> nth_error ms j = Some m' ->
        str_lt (mb_name m) (mb_name m') /\ mb_name m <> mb_name m').
Proof.
  intros L N. split.
  - intros i m H. assert (i < length ms)%nat by (apply nth_error_Some; rewrite H; discriminate).
    rewrite (N i m H). destruct (zero_pad_lemma name n (Z.of_nat i + 1)) as (d & E & _ & D & VD); [lia|]. eauto.
  - intros i j m m' Hij Hi Hj. assert (j < length ms)%nat by (apply nth_error_Some; rewrite Hj; discriminate).
    rewrite (N i m Hi), (N j m' Hj). apply zero_pad_order; lia.
Qed.

(** Altitude and epoch of the lead orbit. *)
Lemma advanced_ae sun a b o o' : advanced sun a b o o' -> altitude_epoch o' = altitude_epoch o
  /\ match o, o' with LTle n l, LTle n' l' => n' = n /\ map e_epoch l' = map e_epoch l /\ map e_no l' = map e_no l | _, _ => True end.
Proof.
  destruct o; destruct o'; simpl; try contradiction; intro A.
  - destruct A as (-> & -> & _). auto.
  - destruct A as (-> & -> & _). auto.
  - destruct A as (-> & -> & _). auto.
  - destruct A as [-> A]. split; [reflexivity|]. split; [reflexivity|].
    clear - A. induction A as [|u v lu lv U F IH]; simpl; [auto|]. destruct U as (-> & _ & _ & _ & -> & _). destruct IH as [-> ->]. auto.
Qed.

Lemma train_count_lemma {I} sun (t : @train I) n : lead_ok (tr_orbit t) -> lead_mean_motion (tr_orbit t) = Ok n ->
  exists ms, train_members sun t = Ok ms /\ length ms = tr_number t
  /\ (forall i m, nth_error ms i = Some m -> mb_instruments m = tr_instruments t
        /\ altitude_epoch (mb_orbit m) = altitude_epoch (tr_orbit t)
        /\ exists d, mb_name m = tr_name t ++ [32%Z] ++ d
             /\ Forall (fun c => 48 <= c <= 57)%Z d /\ decimal_value d = (Z.of_nat i + 1)%Z)
  /\ (forall i j m m', (i < j)%nat -> nth_error ms i = Some m -> nth_error ms j = Some m' ->
        str_lt (mb_name m) (mb_name m') /\ mb_name m <> mb_name m').
Proof.
  intros V E. destruct (train_lemma sun t n V E) as (ms & E1 & L & N). exists ms. split; [assumption|]. split; [assumption|].
  destruct (names_lemma ms (tr_name t) (Z.of_nat (tr_number t)) ltac:(lia)) as [N1 N2]; [intros i m H; now apply N in H|].
  split; [|exact N2]. intros i m H. specialize (N1 i m H). apply N in H as (_ & _ & HI & A). apply advanced_ae in A as [A _]. auto.
Qed.
Lemma walker_count_lemma {I} sun (w : @walker I) : lead_ok (w_orbit w) -> walker_ok w ->
  exists ms, walker_members sun w = Ok ms /\ Z.of_nat (length ms) = w_number w
  /\ (forall i m, nth_error ms i = Some m -> mb_instruments m = w_instruments w
        /\ altitude_epoch (mb_orbit m) = altitude_epoch (w_orbit w)
        /\ exists d, mb_name m = w_name w ++ [32%Z] ++ d
             /\ Forall (fun c => 48 <= c <= 57)%Z d /\ decimal_value d = (Z.of_nat i + 1)%Z)
  /\ (forall i j m m', (i < j)%nat -> nth_error ms i = Some m -> nth_error ms j = Some m' ->
        str_lt (mb_name m) (mb_name m') /\ mb_name m <> mb_name m').
Proof.
  intros V W. destruct (walker_lemma sun w V W) as (ms & E1 & L & N). exists ms. split; [assumption|]. split; [assumption|].
  destruct (names_lemma ms (w_name w) (w_number w) L) as [N1 N2]; [intros i m H; now apply N in H|].
  split; [|exact N2]. intros i m H. specialize (N1 i m H). apply N in H as (_ & HI & A). apply advanced_ae in A as [A _]. auto.
Qed.

(** ** Ground track of a train *)
Lemma train_ground_track_lemma {I} sun (t : @train I) n ms i m : lead_ok (tr_orbit t) -> lead_mean_motion (tr_orbit t) = Ok n ->
  tr_repeat t = true -> train_members sun t = Ok ms -> nth_error ms i = Some m ->
  exists y, node_of (mb_orbit m) = Some y /\
    let dt := INR i * (IZR (tr_interval t) / 1000000) in
    same_degrees (earth_fixed y dt) (earth_fixed (base_node sun (tr_orbit t)) 0 + 360 * dt * (1 / 86400 - 1 / EARTH_SIDEREAL_DAY_S)).
Proof.
  intros V E HR E1 H. destruct (train_lemma sun t n V E) as (ms' & E2 & L & N). rewrite E1 in E2. injection E2 as <-.
  apply N in H as (_ & _ & _ & A). rewrite HR in A. destruct (advanced_node' sun _ _ _ _ V A) as (y & Ey & [k S]). exists y. split; [assumption|].
  cbv zeta. exists k. unfold earth_fixed, EARTH_SIDEREAL_DAY_S. rewrite S. field.
Qed.

Definition train_a : @train Z := mk_train [84%Z] (LCirc circ_a) [1%Z] 3 600000000 true.
Lemma train_a_mm : exists n, lead_mean_motion (tr_orbit train_a) = Ok n.
Proof. destruct (mean_motion_defined 400000 ltac:(lra)) as (n & E & _). exists n. exact E. Qed.
Lemma train_ground_track_refuted_lemma sun : exists (t : @train Z) ms m y,
  train_valid t = true /\ tr_repeat t = true /\ lead_ok (tr_orbit t) /\ train_members sun t = Ok ms /\ nth_error ms 1 = Some m
  /\ node_of (mb_orbit m) = Some y
  /\ ~ same_degrees (earth_fixed y (IZR (tr_interval t) / 1000000)) (earth_fixed (base_node sun (tr_orbit t)) 0).
Proof.
  destruct train_a_mm as [n E]. assert (V : lead_ok (tr_orbit train_a)) by exact circ_a_valid.
  destruct (train_lemma sun train_a n V E) as (ms & E1 & L & _).
  destruct (nth_error ms 1) as [m|] eqn:Em; [|apply nth_error_None in Em; simpl in L; lia].
  destruct (train_ground_track_lemma sun train_a n ms 1 m V E eq_refl E1 Em) as (y & Ey & S).
  exists train_a, ms, m, y. repeat (split; [first [assumption|reflexivity]|]).
  simpl in S. intro C. cbv zeta in S. rewrite Rmult_1_l in S.
  assert (X : same_degrees (earth_fixed 0 0 + 360 * (600000000 / 1000000) * (1 / 86400 - 1 / EARTH_SIDEREAL_DAY_S)) (earth_fixed 0 0)).
  { eapply same_degrees_trans; [apply same_degrees_sym; exact S|exact C]. }
  revert X. apply not_same_small. unfold EARTH_SIDEREAL_DAY_S. rewrite Rabs_left; lra.
Qed.
