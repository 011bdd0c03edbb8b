(** The line method with runs that cross the antimeridian; distances of the culling buffer. *)
From Coq Require Import String Reals ZArith List Bool Lra Lia Sorting.Permutation Sorting.Sorted.
From Verif Require Import Base BaseFacts RBase RFacts RTrigFacts Tle_Model Instr_Model Instr_Spec Geom_Model Poly_Model Poly_Spec Poly_Proofs Poly_Proofs2 Track_Model Track_Spec Track_Proofs Track_Proofs2 Track_Proofs3 Track_Proofs4 Geom_Spec Geom_Proofs Geom_Proofs2.
Import ListNotations.
Local Open Scope R_scope.

Lemma consecutive_map {A B} (f : A -> B) l a b : consecutive (map f l) a b -> exists x y, consecutive l x y /\ a = f x /\ b = f y.
Proof.
  intros (l1 & l2 & E). apply map_eq_app in E. destruct E as (m1 & m2 & -> & E1 & E2).
  apply map_eq_cons in E2. destruct E2 as (x & m3 & -> & <- & E2). apply map_eq_cons in E2. destruct E2 as (y & m4 & -> & <- & E2).
  exists x, y. split; [exists m1, m4; reflexivity|auto].
Qed.
Lemma consecutive_map_r {A B} (f : A -> B) l x y : consecutive l x y -> consecutive (map f l) (f x) (f y).
Proof. intros (l1 & l2 & ->). exists (map f l1), (map f l2). rewrite map_app. reflexivity. Qed.
Lemma consecutive_combine {A B} (l : list A) (m : list B) x y : consecutive (combine l m) x y -> consecutive l (fst x) (fst y).
Proof.
  revert m. induction l as [|a l IH]; intros m C; [destruct C as ([|? ?] & ? & E); discriminate|].
  destruct m as [|b m]; [destruct C as ([|? ?] & ? & E); discriminate|]. cbn in C. apply consecutive_cons in C. destruct C as [[-> (r & E)]|C].
  - destruct l as [|a2 l]; [discriminate|]. destruct m as [|b2 m]; [discriminate|]. injection E as <- _. exists [], l. reflexivity.
  - apply consecutive_skip. exact (IH m C).
Qed.
Lemma in_consecutive {A} (l : list A) x : (2 <= length l)%nat -> In x l -> exists y, consecutive l x y \/ consecutive l y x.
Proof.
  intros L I. apply in_split in I. destruct I as (l1 & l2 & ->). destruct l2 as [|y l2]; [|exists y; left; exists l1, l2; reflexivity].
  destruct l1 as [|z l1] using rev_ind; [cbn in L; lia|]. exists z. right. exists l1, []. rewrite <- app_assoc. reflexivity.
Qed.

Section S.
Variable W : world.
Variable elevation : R.
Definition moved (g : list orow) : list pt :=
  map (fun q => (px (fst q) - 360 * IZR (snd q), py (fst q), pz (fst q))) (combine (at_elevation elevation g) (shifts (map px (at_elevation elevation g)))).
Lemma moved_lon g : map px (moved g) = unwrap (map px (at_elevation elevation g)).
Proof.
  unfold moved, unwrap. rewrite map_map. cbn. set (l := at_elevation elevation g). generalize (shifts (map px l)). clearbody l. clear.
  induction l as [|p l IH]; intros [|z s]; cbn; try reflexivity. now rewrite IH.
Qed.
Lemma moved_consecutive g a b : consecutive (moved g) a b -> exists r s (i j : Z), consecutive g r s
  /\ a = (px (o_geom r) - 360 * IZR i, py (o_geom r), elevation) /\ b = (px (o_geom s) - 360 * IZR j, py (o_geom s), elevation)
  /\ Rabs (px b - px a) <= 180.
Proof.
  intro C. assert (D := consecutive_map_r px _ _ _ C). rewrite moved_lon in D. apply unwrap_lemma in D.
  apply consecutive_map in C. destruct C as ([x i] & [y j] & C & -> & ->). apply consecutive_combine in C. cbn [fst snd] in C. unfold at_elevation in C.
  apply consecutive_map in C. destruct C as (r & s & C & -> & ->). exists r, s, i, j. split; [exact C|]. split; [reflexivity|]. split; [reflexivity|exact D].
Qed.
Lemma moved_path g q : on_line (moved g) q -> pz q = elevation /\ on_path g q.
Proof.
  intros (a & b & t & C & T & X & Y & Z0). apply moved_consecutive in C. destruct C as (r & s & i & j & C & -> & -> & D). cbn [px py pz fst snd] in *.
  split; [exact (Z0 eq_refl)|]. exists r, s, (i - j)%Z, (- i)%Z, t. split; [exact C|]. rewrite minus_IZR, opp_IZR. split; [|split; [exact T|split; [rewrite X; ring|exact Y]]].
  replace (px (o_geom s) + 360 * (IZR i - IZR j) - px (o_geom r)) with (px (o_geom s) - 360 * IZR j - (px (o_geom r) - 360 * IZR i)) by ring. exact D.
Qed.
Lemma crossing_long g : no_crossing (map px (at_elevation elevation g)) = false -> (2 <= length (moved g))%nat.
Proof.
  intro N. rewrite <- (map_length px (moved g)), moved_lon. destruct (unwrap_lemma (map px (at_elevation elevation g))) as (-> & _).
  destruct (no_crossing_false _ N) as (a & b & (l1 & l2 & ->) & _). rewrite app_length. cbn. lia.
Qed.
Lemma map_back_path l q : In q (map_back l) -> exists q' (n : Z), In q' l /\ px q = px q' + 360 * IZR n /\ py q = py q' /\ pz q = pz q'.
Proof.
  unfold map_back. destruct (forallb _ l); [|destruct (forallb _ l)]; intro I.
  - apply in_map_iff in I. destruct I as (q' & <- & I). exists q', 1%Z. cbn. repeat split; [exact I|lra].
  - apply in_map_iff in I. destruct I as (q' & <- & I). exists q', (-1)%Z. cbn. repeat split; [exact I|lra].
  - exists q, 0%Z. repeat split; [exact I|lra].
Qed.
Lemma map_back_range l q : (forall p, In p l -> -540 <= px p <= -180) \/ (forall p, In p l -> -180 <= px p <= 180) \/ (forall p, In p l -> 180 <= px p <= 540) ->
  In q (map_back l) -> -180 <= px q <= 180.
Proof.
  intros H I. unfold map_back in I. destruct (forallb (fun p => Rleb (px p) (-180)) l) eqn:E1.
  - rewrite forallb_forall in E1. apply in_map_iff in I. destruct I as (p & <- & I). specialize (E1 p I). apply Rleb_spec in E1. cbn.
    destruct H as [H|[H|H]]; specialize (H p I); lra.
  - destruct (forallb (fun p => Rleb 180 (px p)) l) eqn:E2.
    + rewrite forallb_forall in E2. apply in_map_iff in I. destruct I as (p & <- & I). specialize (E2 p I). apply Rleb_spec in E2. cbn.
      destruct H as [H|[H|H]]; specialize (H p I); lra.
    + destruct H as [H|[H|H]]; [exfalso|exact (H q I)|exfalso].
      * assert (F : forallb (fun p => Rleb (px p) (-180)) l = true); [|congruence]. apply forallb_forall. intros p J. apply Rleb_spec. specialize (H p J). lra.
      * assert (F : forallb (fun p => Rleb 180 (px p)) l = true); [|congruence]. apply forallb_forall. intros p J. apply Rleb_spec. specialize (H p J). lra.
Qed.
Lemma plain_path g q : no_crossing (map px (at_elevation elevation g)) = true -> length (at_elevation elevation g) <> 1%nat ->
  In q (at_elevation elevation g) -> pz q = elevation /\ on_path g q /\ exists r, In r g /\ px q = px (o_geom r).
Proof.
  intros N L I. unfold at_elevation in I. apply in_map_iff in I. destruct I as (r & <- & I). cbn. split; [reflexivity|]. split; [|exists r; auto].
  assert (L2 : (2 <= length g)%nat). { unfold at_elevation in L. rewrite map_length in L. destruct g as [|? [|? ?]]; [destruct I|now contradiction L|cbn; lia]. }
  assert (K : forall a b, consecutive g a b -> Rabs (px (o_geom b) - px (o_geom a)) < 180).
  { intros a b C. apply (no_crossing_true _ N). rewrite px_at. exact (consecutive_map_r (fun r => px (o_geom r)) _ _ _ C). }
  destruct (in_consecutive g r L2 I) as (s & [C|C]).
  - exists r, s, 0%Z, 0%Z, 0. split; [exact C|]. split; [|split; [lra|split; cbn; lra]]. replace (_ - px (o_geom r)) with (px (o_geom s) - px (o_geom r)) by ring. left. now apply K.
  - exists s, r, 0%Z, 0%Z, 1. split; [exact C|]. split; [|split; [lra|split; cbn; lra]]. replace (_ - px (o_geom s)) with (px (o_geom r) - px (o_geom s)) by ring. left. now apply K.
Qed.

Hypothesis SP : splits_line (w_split_line W).
Lemma segments_path g segs seg q : segments_of W elevation g = Ok segs -> In seg segs -> In q seg -> pz q = elevation /\ on_path g q.
Proof.
  unfold segments_of. fold (moved g). destruct (no_crossing _) eqn:N.
  - destruct (Nat.eqb_spec (length (at_elevation elevation g)) 1) as [E|E]; [discriminate|]. intro H. injection H as <-. intros [<-|[]] I.
    destruct (plain_path g q N E I) as (A & B & _). auto.
  - intro H. injection H as <-. intros S I. apply in_map_iff in S. destruct S as (piece & <- & S). apply map_back_path in I. destruct I as (q' & n & I & X & Y & Z0).
    destruct (SP (moved g) (shift_dir (shifts (map px (at_elevation elevation g)))) (crossing_long g N)) as (_ & P & _).
    destruct (P piece S) as [_ OL]. specialize (OL q' I). apply moved_path in OL. destruct OL as [E (r & s & k & m & t & C & K & T & X' & Y')].
    split; [congruence|]. exists r, s, k, (m + n)%Z, t. split; [exact C|]. split; [exact K|]. split; [exact T|]. rewrite plus_IZR. split; [rewrite X, X'; ring|congruence].
Qed.
Lemma segments_some g segs : segments_of W elevation g = Ok segs -> segs <> [].
Proof.
  unfold segments_of. fold (moved g). destruct (no_crossing _) eqn:N.
  - destruct (Nat.eqb _ 1); [discriminate|]. intro H. injection H as <-. discriminate.
  - intro H. injection H as <-. destruct (SP (moved g) (shift_dir (shifts (map px (at_elevation elevation g)))) (crossing_long g N)) as (P & _).
    destruct (w_split_line W _ _); [now contradiction P|discriminate].
Qed.
Lemma segments_fail g : segments_of W elevation g = Raise GEOSError <-> length g = 1%nat.
Proof.
  unfold segments_of. destruct (no_crossing _) eqn:N.
  - unfold at_elevation. rewrite map_length. destruct (Nat.eqb_spec (length g) 1); split; congruence.
  - split; [discriminate|]. intro L. destruct g as [|r [|? ?]]; try discriminate L. discriminate N.
Qed.

(** Shifts of a run that jumps at most once. *)
Lemma turns_small : forall lon prev, (forall a b, consecutive (prev :: lon) a b -> Rabs (b - a) < 180) -> turns prev lon = repeat 0%Z (length lon).
Proof.
  induction lon as [|x lon IH]; intros prev H; cbn; [reflexivity|]. f_equal.
  - apply rhe_value. assert (R := H prev x (ex_intro _ [] (ex_intro _ lon eq_refl))). apply Rabs_def2 in R. apply Rabs_def1; lra.
  - apply IH. intros a b C. apply H. now apply consecutive_skip.
Qed.
Lemma cumsum_zero acc n : cumsum acc (repeat 0%Z n) = repeat acc n.
Proof. induction n as [|n IH]; cbn; [reflexivity|]. rewrite Z.add_0_r, IH. reflexivity. Qed.
Lemma turns_app : forall l1 l2 prev, turns prev (l1 ++ l2) = turns prev l1 ++ turns (last l1 prev) l2.
Proof.
  induction l1 as [|x l1 IH]; intros l2 prev; [reflexivity|]. cbn [app turns]. rewrite IH. cbn [app]. f_equal. f_equal.
  destruct l1 as [|y l1]; [reflexivity|]. change (last (x :: y :: l1) prev) with (last (y :: l1) prev).
  f_equal. clear. revert x y prev. induction l1 as [|z l1 IH]; intros; [reflexivity|]. change (last (y :: z :: l1) x) with (last (z :: l1) x). change (last (y :: z :: l1) prev) with (last (z :: l1) prev). apply IH; exact y.
Qed.
Lemma cumsum_app : forall l1 l2 acc, cumsum acc (l1 ++ l2) = cumsum acc l1 ++ cumsum (fold_left Z.add l1 acc) l2.
Proof. induction l1 as [|x l1 IH]; intros l2 acc; [reflexivity|]. cbn. now rewrite IH. Qed.
Lemma fold_zero n acc : fold_left Z.add (repeat 0%Z n) acc = acc.
Proof. induction n as [|n IH]; cbn; [reflexivity|]. now rewrite Z.add_0_r. Qed.
Lemma in_repeat {A} (x y : A) n : In y (repeat x n) -> y = x.
Proof. apply repeat_spec. Qed.
Lemma one_turn a b : -180 <= a <= 180 -> -180 <= b <= 180 -> let z := round_half_even ((b - a) / 360) in (z = 0 \/ z = 1 \/ z = -1)%Z.
Proof.
  intros A B z. assert (H := rhe_bounds ((b - a) / 360)). fold z in H.
  assert (-2 < IZR z < 2) by lra. destruct H0 as [L U]. apply lt_IZR in L, U. lia.
Qed.
Lemma last_in {A} (l : list A) x : In (last l x) (x :: l).
Proof.
  revert x. induction l as [|y l IH]; intro x; [now left|]. destruct l as [|z l]; [right; now left|]. right.
  change (last (y :: z :: l) x) with (last (z :: l) x). replace (last (z :: l) x) with (last (z :: l) y); [apply IH|].
  clear. revert z. induction l as [|w l IH]; intro z; [reflexivity|]. change (last (w :: l) y = last (w :: l) x). apply IH.
Qed.
Lemma shifts_once lon1 lon2 : (forall a b, consecutive lon1 a b -> Rabs (b - a) < 180) -> (forall a b, consecutive lon2 a b -> Rabs (b - a) < 180) ->
  (forall x, In x (lon1 ++ lon2) -> -180 <= x <= 180) ->
  (forall k, In k (shifts (lon1 ++ lon2)) -> k = 0%Z \/ k = 1%Z) \/ (forall k, In k (shifts (lon1 ++ lon2)) -> k = 0%Z \/ k = (-1)%Z).
Proof.
  intros S1 S2 B.
  assert (SH : exists e, (e = 0 \/ e = 1 \/ e = -1)%Z /\ forall k, In k (shifts (lon1 ++ lon2)) -> k = 0%Z \/ k = e).
  { destruct lon1 as [|x l1].
    - destruct lon2 as [|y l2]; [exists 0%Z; split; [auto|]; cbn; intuition|]. exists 0%Z. split; [auto|]. cbn. rewrite turns_small by exact S2. rewrite cumsum_zero.
      intros k [<-|I]; [auto|]. apply in_repeat in I. auto.
    - cbn [app shifts]. rewrite turns_app, turns_small by exact S1. rewrite cumsum_app, cumsum_zero, fold_zero.
      destruct lon2 as [|y l2].
      + exists 0%Z. split; [auto|]. cbn. rewrite app_nil_r. intros k [<-|I]; [auto|]. apply in_repeat in I. auto.
      + cbn [turns cumsum]. rewrite turns_small by exact S2. rewrite cumsum_zero. exists (round_half_even ((y - last l1 x) / 360)). split.
        * apply one_turn; apply B; [|apply in_or_app; right; now left]. apply in_or_app. left. apply last_in.
        * intros k [<-|I]; [auto|]. apply in_app_or in I. destruct I as [I|[<-|I]]; [apply in_repeat in I; auto| |apply in_repeat in I; auto]. right. lia. }
  destruct SH as (e & [-> | [-> | ->]] & H); [left|left|right]; intros k I; destruct (H k I); auto.
Qed.
Lemma in_moved g p : In p (moved g) -> exists r k, In r g /\ In k (shifts (map px (at_elevation elevation g))) /\ px p = px (o_geom r) - 360 * IZR k.
Proof.
  unfold moved. intro I. apply in_map_iff in I. destruct I as ([x k] & <- & I). cbn. pose proof (in_combine_l _ _ _ _ I) as L. apply in_combine_r in I.
  unfold at_elevation in L. apply in_map_iff in L. destruct L as (r & <- & L). exists r, k. auto.
Qed.
Lemma on_line_range l lo hi q : (forall p, In p l -> lo <= px p <= hi) -> on_line l q -> lo <= px q <= hi.
Proof.
  intros H (a & b & t & (l1 & l2 & ->) & T & X & _). assert (A := H a). assert (B := H b). rewrite X.
  assert (lo <= px a <= hi) by (apply A, in_or_app; right; now left). assert (lo <= px b <= hi) by (apply B, in_or_app; right; right; now left). nra.
Qed.
Lemma segments_range g segs seg q : crosses_once g -> (forall r, In r g -> -180 <= px (o_geom r) <= 180) ->
  segments_of W elevation g = Ok segs -> In seg segs -> In q seg -> -180 <= px q <= 180.
Proof.
  intros (g1 & g2 & -> & N1 & N2) B. remember (g1 ++ g2) as g eqn:G. unfold segments_of. fold (moved g). destruct (no_crossing _) eqn:N.
  - destruct (Nat.eqb_spec (length (at_elevation elevation g)) 1) as [E|E]; [discriminate|]. intro H. injection H as <-. intros [<-|[]] I.
    destruct (plain_path g q N E I) as (_ & _ & r & R1 & ->). now apply B.
  - intro H. injection H as <-. intros S I. apply in_map_iff in S. destruct S as (piece & <- & S).
    destruct (SP (moved g) (shift_dir (shifts (map px (at_elevation elevation g)))) (crossing_long g N)) as (_ & P & _). destruct (P piece S) as [SIDE OL].
    eapply map_back_range; [|exact I].
    assert (SH := shifts_once (map (fun r => px (o_geom r)) g1) (map (fun r => px (o_geom r)) g2) N1 N2). rewrite <- map_app, <- G, <- (px_at elevation) in SH.
    assert (RG : forall x, In x (map px (at_elevation elevation g)) -> -180 <= x <= 180).
    { rewrite px_at. intros x J. apply in_map_iff in J. destruct J as (r & <- & J). now apply B. }
    specialize (SH RG). unfold shift_dir in SIDE. destruct (existsb _ _) eqn:EX.
    + apply existsb_shift in EX. destruct EX as (k & K & L). destruct SH as [SH|SH]; [|specialize (SH k K); lia].
      assert (RM : forall p, In p (moved g) -> -540 <= px p <= 180).
      { intros p J. apply in_moved in J. destruct J as (r & j & J1 & J2 & ->). specialize (B r J1). destruct (SH j J2) as [-> | ->]; cbn; lra. }
      destruct SIDE as [SIDE|SIDE]; [left|right; left]; intros p J; specialize (SIDE p J); pose proof (on_line_range _ _ _ _ RM (OL p J)); lra.
    + assert (SH' : forall k, In k (shifts (map px (at_elevation elevation g))) -> k = 0%Z \/ k = (-1)%Z).
      { intros k K. destruct SH as [SH|SH]; [|now apply SH]. destruct (SH k K) as [-> | ->]; [now left|]. exfalso.
        assert (existsb (fun k => (1 <=? k)%Z) (shifts (map px (at_elevation elevation g))) = true); [|congruence]. apply existsb_shift. exists 1%Z. split; [exact K|lia]. }
      assert (RM : forall p, In p (moved g) -> -180 <= px p <= 540).
      { intros p J. apply in_moved in J. destruct J as (r & j & J1 & J2 & ->). specialize (B r J1). destruct (SH' j J2) as [-> | ->]; cbn; lra. }
      destruct SIDE as [SIDE|SIDE]; [right; left|right; right]; intros p J; specialize (SIDE p J); pose proof (on_line_range _ _ _ _ RM (OL p J)); lra.
Qed.
End S.

Lemma concat_long {A} (l : list (list A)) : (forall x, In x l -> x <> []) -> (length l <= length (concat l))%nat.
Proof.
  induction l as [|x l IH]; cbn; intro H; [lia|]. rewrite app_length. assert (x <> []) by (apply H; now left). assert (L := IH (fun y I => H y (or_intror I))).
  destruct x; [congruence|cbn; lia].
Qed.
Lemma mapM_inv {A B} (f : A -> pyres B) l ys : mapM f l = Ok ys -> Forall2 (fun x y => f x = Ok y) l ys.
Proof.
  revert ys. induction l as [|x l IH]; cbn; intros ys H; [injection H as <-; constructor|].
  destruct (f x) as [y|] eqn:E; [|discriminate]. cbn in H. destruct (mapM f l) as [zs|]; [|discriminate]. injection H as <-. constructor; auto.
Qed.
Lemma Forall2_in_r {A B} (P : A -> B -> Prop) l m y : Forall2 P l m -> In y m -> exists x, In x l /\ P x y.
Proof. induction 1 as [|a b l m H F IH]; intros []; [subst; exists a; split; [now left|exact H]|]. destruct (IH H0) as (x & I & Q). exists x. split; [now right|exact Q]. Qed.
Lemma Forall2_len2 {A B} (P : A -> B -> Prop) l m : Forall2 P l m -> length l = length m.
Proof. induction 1; cbn; congruence. Qed.
Lemma grouped_rows_at t0 period track ig g : grouped t0 period track ig -> In g ig -> length (rows_at track g) = length g.
Proof.
  intros (_ & V & _) I. unfold rows_at. assert (K : forall i, In i g -> exists r, nth_error track i = Some r).
  { intros i J. destruct (proj1 (V i)) as (r & N & _); [apply in_concat; eauto|eauto]. }
  clear - K. induction g as [|i g IH]; [reflexivity|]. cbn. destruct (K i (or_introl eq_refl)) as (r & ->). cbn. f_equal. apply IH. intros j J. apply K. now right.
Qed.

Lemma line_rows : forall W sa times idx elevation code period track rows,
  collect_orbit_track W sa times idx elevation None WGS84 false false false false = Ok track ->
  compute_ground_track W sa times idx elevation None (Crs code) MLine period false = Ok rows ->
  forall r, In r rows -> exists seg w g segs, g_geom r = w_buffer_line W code elevation seg w /\ In g (line_groups (hd 0%Z times) period track)
    /\ segments_of W elevation g = Ok segs /\ In seg segs.
Proof.
  intros W sa times idx elevation code period track rows E H r I. cbn in H. unfold line_track in H. rewrite E in H. cbn [bind] in H.
  destruct (mapM _ _) as [segs|] eqn:M; [|discriminate]. cbn [bind] in H. destruct (negb _); [discriminate|]. injection H as <-.
  apply in_flat_map in I. destruct I as ([g p] & I & R1). cbn [fst snd] in R1. apply in_combine_r in I. apply in_map_iff in I. destruct I as ([seg w] & <- & I). apply in_combine_l in I.
  cbn [fst snd] in *. destruct g as [|r0 g]; [destruct R1|]. destruct R1 as [<-|[]]. cbn. apply in_concat in I. destruct I as (ss & I & J).
  apply mapM_inv in M. destruct (Forall2_in_r _ _ _ _ M I) as (g' & G1 & G2). exists seg, w, g', ss. auto.
Qed.
Lemma line_path_lemma : forall W sa times idx elevation code period track rows, splits_line (w_split_line W) -> (0 < period)%Z ->
  collect_orbit_track W sa times idx elevation None WGS84 false false false false = Ok track ->
  compute_ground_track W sa times idx elevation None (Crs code) MLine period false = Ok rows ->
  exists ig, grouped (hd 0%Z times) period track ig
    /\ forall r, In r rows -> exists seg w g, In g ig /\ g_geom r = w_buffer_line W code elevation seg w
         /\ (forall q, In q seg -> pz q = elevation /\ on_path (rows_at track g) q)
         /\ (crosses_once (rows_at track g) -> (forall s, In s (rows_at track g) -> -180 <= px (o_geom s) <= 180) -> forall q, In q seg -> -180 <= px q <= 180).
Proof.
  intros W sa times idx elevation code period track rows SP P E H. destruct (grouping_lemma (hd 0%Z times) period track P) as (ig & Q & GR). exists ig. split; [exact GR|].
  intros r I. destruct (line_rows _ _ _ _ _ _ _ _ _ E H r I) as (seg & w & g & segs & G1 & G2 & G3 & G4). rewrite (groups_at _ _ _ _ Q) in G2. apply in_map_iff in G2.
  destruct G2 as (g' & <- & G2). exists seg, w, g'. split; [exact G2|]. split; [exact G1|]. split.
  - intros q J. exact (segments_path W elevation SP _ _ _ _ G3 G4 J).
  - intros CO B q J. exact (segments_range W elevation SP _ _ _ _ CO B G3 G4 J).
Qed.

Lemma mapM_or {A B} (f : A -> pyres B) e l : (forall y, match f y with Raise e' => e' = e | Ok _ => True end) ->
  (exists ys, mapM f l = Ok ys) \/ (mapM f l = Raise e /\ exists x, In x l /\ f x = Raise e).
Proof.
  intro H. induction l as [|x l IH]; [left; exists []; reflexivity|]. cbn. pose proof (H x) as Hx. destruct (f x) as [y|e'] eqn:E.
  - destruct IH as [(ys & ->)|[-> (z & I & F)]]; cbn; [left; eauto|right]. split; [reflexivity|]. exists z. split; [now right|exact F].
  - right. subst e'. split; [reflexivity|]. exists x. split; [now left|exact E].
Qed.
Lemma line_exact_lemma : forall W sa times idx elevation code period track, splits_line (w_split_line W) -> (0 < period)%Z ->
  collect_orbit_track W sa times idx elevation None WGS84 false false false false = Ok track ->
  exists ig, grouped (hd 0%Z times) period track ig
    /\ (((exists g, In g ig /\ length g = 1%nat) /\ compute_ground_track W sa times idx elevation None (Crs code) MLine period false = Raise GEOSError)
        \/ ((forall g, In g ig -> (2 <= length g)%nat)
            /\ exists rows, compute_ground_track W sa times idx elevation None (Crs code) MLine period false = Ok rows
               /\ Forall2 (fun g r => exists i s, hd_error g = Some i /\ nth_error track i = Some s /\ g_time r = o_time s /\ g_sat r = o_sat s /\ g_instr r = o_instr s) ig rows)).
Proof.
  intros W sa times idx elevation code period track SP P E. destruct (grouping_lemma (hd 0%Z times) period track P) as (ig & Q & GR). exists ig. split; [exact GR|].
  assert (LEN : forall g, In g ig -> length (rows_at track g) = length g) by (intros g I; exact (grouped_rows_at _ _ _ _ _ GR I)).
  cbn. unfold line_track. rewrite E. cbn [bind]. rewrite (groups_at _ _ _ _ Q).
  destruct (mapM_or (segments_of W elevation) GEOSError (map (rows_at track) ig) (segments_raise W elevation)) as [(segs & M)|[M (x & I & F)]]; rewrite M; cbn [bind].
  - right. pose proof (mapM_inv _ _ _ M) as F. split.
    + intros g I. destruct (proj2 (proj2 (proj2 (proj2 (conj I GR))))) as [SS _]. destruct (SS g I) as [_ NE].
      destruct g as [|a [|b g]]; [congruence| |cbn; lia]. exfalso.
      assert (S1 : segments_of W elevation (rows_at track [a]) = Raise GEOSError) by (apply segments_fail; rewrite LEN by exact I; reflexivity).
      clear - F I S1. remember (map (rows_at track) ig) as l eqn:EL. assert (J : In (rows_at track [a]) l) by (subst l; now apply in_map). clear EL I.
      induction F; [destruct J|]. destruct J as [->|J]; [congruence|auto].
    + set (groups := map (rows_at track) ig). set (widths := map (fun g => mean_skipna (map o_swath g)) groups).
      assert (L : length (combine (concat segs) widths) = length groups).
      { rewrite combine_length. unfold widths. rewrite map_length. assert (LL := concat_long segs). rewrite <- (Forall2_len2 _ _ _ F) in LL. fold groups in LL.
        assert (length groups <= length (concat segs))%nat; [|lia]. apply LL. intros s I. destruct (Forall2_in_r _ _ _ _ F I) as (g & _ & G). exact (segments_some W elevation SP _ _ G). }
      rewrite map_length, L, Nat.eqb_refl. cbn [negb]. eexists. split; [reflexivity|]. set (polys := map _ (combine (concat segs) widths)).
      assert (L2 : length polys = length ig) by (unfold polys; rewrite map_length, L; unfold groups; apply map_length). clearbody polys. clear L widths F M segs E. unfold groups. clear groups Q.
      assert (NE : forall g, In g ig -> exists i s r, hd_error g = Some i /\ nth_error track i = Some s /\ rows_at track g = s :: r).
      { intros g I. destruct GR as (_ & V & _ & SS & _). destruct (SS g I) as [_ N]. destruct g as [|i g]; [congruence|]. destruct (proj1 (V i)) as (s & S1 & _); [apply in_concat; exists (i :: g); split; [exact I|now left]|].
        exists i, s, (rows_at track g). split; [reflexivity|]. split; [exact S1|]. unfold rows_at. cbn. rewrite S1. reflexivity. }
      clear GR LEN P SP. revert polys L2. induction ig as [|g ig IH]; intros [|p polys] L2; cbn in *; try discriminate; [constructor|].
      destruct (NE g (or_introl eq_refl)) as (i & s & r & N1 & N2 & N3). rewrite N3. cbn. constructor; [exists i, s; cbn; auto|]. apply IH; [intros; apply NE; now right|congruence].
  - left. split; [|reflexivity]. apply in_map_iff in I. destruct I as (g & <- & I). exists g. split; [exact I|]. apply segments_fail in F. now rewrite LEN in F.
Qed.

(** *** A splitting of lines, and a run across the antimeridian *)
Definition crossing_at (d : R) (a b : pt) : pt := (d, py a + (d - px a) / (px b - px a) * (py b - py a), pz a).
Fixpoint edge_split (l : list pt) (d : R) : list (list pt) :=
  match l with
  | a :: ((b :: _) as r) =>
      (if (Rltb (px a) d && Rltb d (px b)) || (Rltb (px b) d && Rltb d (px a)) then [[a; crossing_at d a b]; [crossing_at d a b; b]] else [[a; b]]) ++ edge_split r d
  | _ => []
  end.
Lemma edge_split_in l d piece : In piece (edge_split l d) -> exists a b, consecutive l a b
  /\ (((px a < d < px b \/ px b < d < px a) /\ (piece = [a; crossing_at d a b] \/ piece = [crossing_at d a b; b]))
      \/ ((px a <= d /\ px b <= d \/ d <= px a /\ d <= px b) /\ piece = [a; b])).
Proof.
  induction l as [|a l IH]; [intros []|]. destruct l as [|b l]; [intros []|]. cbn [edge_split]. intro I. apply in_app_or in I. destruct I as [I|I].
  - exists a, b. split; [exists [], l; reflexivity|]. destruct (_ || _) eqn:E.
    + left. apply orb_true_iff in E. rewrite !andb_true_iff, !Rltb_spec in E. split; [tauto|]. cbn in I. destruct I as [<-|[<-|[]]]; auto.
    + right. apply orb_false_iff in E. rewrite !andb_false_iff, !Rltb_false in E. destruct I as [<-|[]]. split; [lra|reflexivity].
  - destruct (IH I) as (x & y & C & K). exists x, y. split; [now apply consecutive_skip|exact K].
Qed.
Lemma crossing_on a b d l : (px a < d < px b \/ px b < d < px a) -> consecutive l a b -> on_line l (crossing_at d a b).
Proof.
  intros D C. assert (N : px b - px a <> 0) by lra. exists a, b, ((d - px a) / (px b - px a)). split; [exact C|]. split.
  - destruct D as [D|D].
    + split; [apply Rmult_le_pos; [lra|left; apply Rinv_0_lt_compat; lra]|]. apply (Rmult_le_reg_r (px b - px a)); [lra|]. replace ((d - px a) / (px b - px a) * (px b - px a)) with (d - px a) by (field; exact N). lra.
    + replace ((d - px a) / (px b - px a)) with ((px a - d) / (px a - px b)) by (field; lra).
      split; [apply Rmult_le_pos; [lra|left; apply Rinv_0_lt_compat; lra]|]. apply (Rmult_le_reg_r (px a - px b)); [lra|]. replace ((px a - d) / (px a - px b) * (px a - px b)) with (px a - d) by (field; lra). lra.
  - unfold crossing_at. cbn [px py pz fst snd]. split; [field; exact N|]. split; [reflexivity|auto].
Qed.
Lemma vertex_on_l l a b : consecutive l a b -> on_line l a.
Proof. intro C. exists a, b, 0. split; [exact C|]. split; [lra|]. repeat split; lra || auto. Qed.
Lemma vertex_on_r l a b : consecutive l a b -> on_line l b.
Proof. intro C. exists a, b, 1. split; [exact C|]. split; [lra|]. repeat split; lra || auto. Qed.
Lemma edge_splits : splits_line edge_split.
Proof.
  intros line d L. split; [|split].
  - destruct line as [|a [|b l]]; cbn in L; [lia|lia|]. cbn [edge_split]. destruct (_ || _); discriminate.
  - intros piece I. apply edge_split_in in I. destruct I as (a & b & C & [[D [-> | ->]]|[D ->]]).
    + split; [|intros q [<-|[<-|[]]]; [exact (vertex_on_l _ _ _ C)|now apply crossing_on]].
      destruct D as [D|D]; [left|right]; intros q [<-|[<-|[]]]; cbn; lra.
    + split; [|intros q [<-|[<-|[]]]; [now apply crossing_on|exact (vertex_on_r _ _ _ C)]].
      destruct D as [D|D]; [right|left]; intros q [<-|[<-|[]]]; cbn; lra.
    + split; [|intros q [<-|[<-|[]]]; [exact (vertex_on_l _ _ _ C)|exact (vertex_on_r _ _ _ C)]].
      destruct D as [D|D]; [left|right]; intros q [<-|[<-|[]]]; lra.
  - intros q I. revert L I. induction line as [|a l IH]; intros L I; [destruct I|]. destruct l as [|b l]; [cbn in L; lia|]. cbn [edge_split].
    assert (H : q = a \/ (q = b /\ l = []) \/ (In q (b :: l) /\ (2 <= length (b :: l))%nat)).
    { destruct I as [->|I]; [auto|]. destruct l as [|c l]; [destruct I as [->|[]]; auto|]. right. right. split; [exact I|cbn; lia]. }
    destruct H as [-> | [[-> ->]|[J K]]].
    + destruct (_ || _); [exists [a; crossing_at d a b]|exists [a; b]]; (split; [apply in_or_app; left; now left|now left]).
    + destruct (_ || _); [exists [crossing_at d a b; b]|exists [a; b]]; (split; [apply in_or_app; left; auto using in_eq, in_cons|right; now left]).
    + destruct (IH K J) as (piece & P1 & P2). exists piece. split; [apply in_or_app; now right|exact P2].
Qed.
Definition ex_run : list orow := map (fun t => mk_orow t [] [] None true (ex_lon t, 0, 500000) None None None None) [0; 1]%Z.
Lemma ex_run_once : crosses_once ex_run /\ ~ no_jump ex_run /\ forall s, In s ex_run -> -180 <= px (o_geom s) <= 180.
Proof.
  split; [|split].
  - exists (firstn 1 ex_run), (skipn 1 ex_run). split; [reflexivity|]. split; intros a b ([|? [|? ?]] & l2 & E); discriminate.
  - intro N. assert (H := N 179 (-179) (ex_intro _ [] (ex_intro _ [] eq_refl))). apply Rabs_def2 in H. lra.
  - intros s [<-|[<-|[]]]; cbn; lra.
Qed.

(** *** Reach of the culling buffer *)
Lemma reach_enough v step w : 0 <= v -> enough v step w (v * step + w / 2).
Proof.
  intros V X dist (P & S & T) g q s t L D N. pose proof (T (g s) (g t) q). pose proof (L s t). pose proof (Rmult_le_compat_l v _ _ V D). lra.
Qed.
Lemma reach_least v step w d : 0 <= v -> 0 <= w -> 0 <= step -> enough v step w d -> v * step + w / 2 <= d.
Proof.
  intros V Wd St E. specialize (E R (fun a b => Rabs (b - a))).
  assert (M : metric (fun a b => Rabs (b - a))).
  { split; [intros; apply Rabs_pos|]. split; [intros; apply Rabs_minus_sym|]. intros a b c. replace (c - a) with ((b - a) + (c - b)) by ring. apply Rabs_triang. }
  specialize (E M (fun a => v * a) (v * step + w / 2) 0 step).
  assert (P : 0 <= v * step) by now apply Rmult_le_pos.
  assert (X : Rabs (v * step + w / 2 - v * 0) <= d).
  { apply E.
    - intros a b. replace (v * b - v * a) with (v * (b - a)) by ring. rewrite Rabs_mult, (Rabs_pos_eq v V). lra.
    - rewrite Rabs_pos_eq; lra.
    - rewrite Rabs_pos_eq; lra. }
  rewrite Rabs_pos_eq in X; lra.
Qed.
Lemma distance_lemma : forall h i f step, above h 0 -> h <= 35000000 -> 0 <= f <= 360 -> 0 <= step ->
  exists v w d, compute_ground_velocity h i = Some v /\ field_of_regard_to_swath_width h f 0 = Some w /\ buffer_distance h i f step 1 = Some d
    /\ enough v step w d /\ (forall d', enough v step w d' -> d <= d') /\ (forall k, buffer_distance h i f step k = Some (k * d)).
Proof.
  intros h i f step A H F St. destruct (bounded_full h f 0 A F) as [(w & Ew & _ & Wb) _].
  assert (H' : - EARTH_MEAN_RADIUS < h <= 35000000) by (unfold above in A; lra).
  pose proof (model_speed_pos h i H') as V. exists (model_speed h i), w, (model_speed h i * step + w / 2).
  rewrite ground_velocity_value by lra. unfold buffer_distance. rewrite Ew, ground_velocity_value by lra. cbn [obind].
  split; [reflexivity|]. split; [reflexivity|]. split; [f_equal; ring|]. split; [apply reach_enough; lra|]. split; [intros d' E; apply reach_least; try lra; exact E|].
  intro k. f_equal. ring.
Qed.
