(** Concrete worlds: witnesses against properties that do not hold, and examples. *)
From Coq Require Import String Reals ZArith List Bool Lra Lia Sorting.Permutation Sorting.Sorted.
From Verif Require Import Base BaseFacts RBase RFacts RTrigFacts Tle_Model Instr_Model Instr_Spec Geom_Model Poly_Model Poly_Spec Poly_Proofs Track_Model Track_Spec Track_Proofs Track_Proofs2 Track_Proofs3.
Import ListNotations.
Local Open Scope R_scope.

(** A line cut where it crosses a meridian. *)
Fixpoint cut_line (d : R) (done : list pt) (p : pt) (l : list pt) : list (list pt) :=
  match l with
  | [] => [done ++ [p]]
  | q :: r =>
      if (Rltb (px p) d && Rltb d (px q)) || (Rltb (px q) d && Rltb d (px p)) then
        let m := (d, py p + (py q - py p) / (px q - px p) * (d - px p), pz p) in
        (done ++ [p; m]) :: cut_line d [m] q r
      else cut_line d (done ++ [p]) q r
  end.
Definition ex_split_line (l : list pt) (d : R) : list (list pt) := match l with [] => [] | p :: r => cut_line d [] p r end.
(** A satellite above the equator; geometries are sets of points. *)
Definition ex_world (lon : Z -> R) (lit_ : Z -> bool) (rep : Z -> Z) : world :=
  mk_world Z (fun t => t) rep (fun t => (lon t, 0, 500000)) (fun t => (6878137, 0, 0)) (fun t => (0, 6878137, 0)) (fun _ => (0, 7000, 0)) (fun _ => (7000, 0, 0))
    lit_ (fun _ => (10, 20)) (fun _ => 0) (fun _ _ => 30)
    (list pt) (fun _ e t => [(lon t, 0, e)]) (fun _ e t => (lon t, 0, e)) (fun _ e t ij => (lon t + INR (fst ij), INR (snd ij), e))
    (fun _ e p _ => [(px p, py p, e)]) (fun _ _ l _ => l) (fun l => concat l) ex_split_line (fun _ l => l).
Definition ex_lon (t : Z) : R := match t with 0%Z => 179 | 1%Z => -179 | 3%Z => 10 | 4%Z => 11 | _ => 0 end.
Definition ex_lit (t : Z) : bool := negb (t =? 2)%Z.
Definition ex_instr : instrument := mk_instr (lit "camera"%string) 40 (mk_req (Some true) None) None.
Definition ex_sat : sat := mk_sat (lit "sat"%string) [ex_instr].
Definition ex_crossing_world := ex_world ex_lon ex_lit (fun t => t).
Lemma ex_picks : picks (sa_instruments ex_sat) 0 ex_instr.
Proof. exists 0%nat. split; [reflexivity|now left]. Qed.
Lemma ex_clip_keeps lon l rep : clip_keeps (w_clip_order (ex_world lon l rep)).
Proof. intros A x. apply Permutation_refl. Qed.
Lemma ex_union lon l rep : is_union (fun (g : w_G (ex_world lon l rep)) x => In x g) (w_union (ex_world lon l rep)).
Proof. intros gs x. cbn. rewrite in_concat. split; intros (g & A1 & B1); eauto. Qed.
Lemma ex_groups n1 n2 w0 w1 w2 w3 w4 g0 g1 g2 g3 g4 :
  let r0 := mk_orow 0 n1 n2 w0 true g0 None None None None in let r1 := mk_orow 1 n1 n2 w1 true g1 None None None None in
  let r2 := mk_orow 2 n1 n2 w2 false g2 None None None None in let r3 := mk_orow 3 n1 n2 w3 true g3 None None None None in
  let r4 := mk_orow 4 n1 n2 w4 true g4 None None None None in
  line_groups 0 1000 [r0; r1; r2; r3; r4] = [[r0; r1]; [r3; r4]].
Proof. reflexivity. Qed.
Lemma ex_track : exists w0 w1 w2 w3 w4, collect_orbit_track ex_crossing_world ex_sat [0; 1; 2; 3; 4]%Z 0 0 None WGS84 false false false false =
  Ok [mk_orow 0 (sa_name ex_sat) (in_name ex_instr) w0 true (179, 0, 500000) None None None None; mk_orow 1 (sa_name ex_sat) (in_name ex_instr) w1 true (-179, 0, 500000) None None None None;
      mk_orow 2 (sa_name ex_sat) (in_name ex_instr) w2 false (0, 0, 500000) None None None None; mk_orow 3 (sa_name ex_sat) (in_name ex_instr) w3 true (10, 0, 500000) None None None None;
      mk_orow 4 (sa_name ex_sat) (in_name ex_instr) w4 true (11, 0, 500000) None None None None].
Proof.
  rewrite (collect_none ex_crossing_world ex_sat _ 0 ex_instr) by apply ex_picks. do 5 eexists. reflexivity.
Qed.
Ltac rtest := repeat match goal with
  | |- context [Rltb ?a ?b] => first [rewrite (proj2 (Rltb_spec a b)) by lra | rewrite (proj2 (Rltb_false a b)) by lra]
  | |- context [Rleb ?a ?b] => first [rewrite (proj2 (Rleb_spec a b)) by lra | rewrite (proj2 (Rleb_false a b)) by lra]
  end.
Lemma ex_seg1 n1 n2 w0 w1 : exists y, segments_of ex_crossing_world 0
  [mk_orow 0 n1 n2 w0 true (179, 0, 500000) None None None None; mk_orow 1 n1 n2 w1 true (-179, 0, 500000) None None None None]
  = Ok [[(179, 0, 0); (180, y, 0)]; [(180 - 360, y, 0); (-179 - 360 * -1 - 360, 0, 0)]].
Proof.
  eexists. unfold segments_of, at_elevation, no_crossing, steps_small, shifts, turns, cumsum. cbn [map o_geom px py fst snd].
  replace (Rltb (Rabs (-179 - 179)) 180) with false by (symmetry; apply Rltb_false; rewrite Rabs_left by lra; lra). cbn [andb].
  rewrite (rhe_value ((-179 - 179) / 360) (-1)) by (apply Rabs_def1; lra). cbn [Z.add]. unfold shift_dir. cbn [existsb Z.leb Z.compare orb].
  cbn [combine map fst snd px py pz]. unfold ex_crossing_world, ex_world, w_split_line, ex_split_line, cut_line. cbn [px py pz fst snd].
  replace (179 - 360 * 0) with 179 by lra. rtest. cbn [andb orb app map]. unfold map_back. cbn [forallb px py pz fst snd]. rtest. cbn [andb map px py pz fst snd]. reflexivity.
Qed.
Lemma ex_seg2 n1 n2 w0 w1 : segments_of ex_crossing_world 0
  [mk_orow 3 n1 n2 w0 true (10, 0, 500000) None None None None; mk_orow 4 n1 n2 w1 true (11, 0, 500000) None None None None] = Ok [[(10, 0, 0); (11, 0, 0)]].
Proof.
  rewrite segments_plain; [reflexivity|]. split; [cbn; lia|]. cbn. intros a b (l1 & l2 & E). destruct l1 as [|x [|y l1]]; cbn in E; injection E as; subst.
  - apply Rabs_def1; lra.
  - discriminate.
  - destruct l1; discriminate.
Qed.
Lemma line_wrong : exists (W : world) (covers : w_G W -> pt -> Prop) sa times code elevation period rows,
  collect_ground_track W sa times 0 elevation None (Crs code) <> Raise IndexError /\ is_union covers (w_union W)
  /\ (forall l w x, In x l -> covers (w_buffer_line W code elevation l w) x)
  /\ compute_ground_track W sa times 0 elevation None (Crs code) MLine period false = Ok rows
  /\ exists track r, collect_orbit_track W sa times 0 elevation None WGS84 false false false false = Ok track /\ In r track /\ o_valid r = true
     /\ forall s, In s rows -> ~ covers (g_geom s) (px (o_geom r), py (o_geom r), elevation).
Proof.
  exists ex_crossing_world, (fun g x => In x g), ex_sat, [0; 1; 2; 3; 4]%Z, (lit "EPSG:4087"%string), 0, 1000%Z.
  destruct ex_track as (w0 & w1 & w2 & w3 & w4 & T). destruct (ex_seg1 (sa_name ex_sat) (in_name ex_instr) w0 w1) as [y S1]. pose proof (ex_seg2 (sa_name ex_sat) (in_name ex_instr) w3 w4) as S2.
  eexists. split; [|split; [|split; [|split]]].
  - rewrite (ground_none ex_crossing_world ex_sat _ 0 ex_instr) by apply ex_picks. discriminate.
  - apply ex_union.
  - intros l w x I. exact I.
  - cbn [compute_ground_track]. unfold line_track. rewrite T. cbn [bind hd]. rewrite ex_groups. cbn [mapM]. rewrite S1. cbn [bind]. rewrite S2. reflexivity.
  - eexists. eexists. split; [exact T|]. split; [do 3 right; left; reflexivity|]. split; [reflexivity|]. cbn.
    intros s [<-|[<-|[]]]; cbn; intros [Q|[Q|[]]]; apply (f_equal (fun p => fst (fst p))) in Q; cbn in Q; lra.
Qed.

(** *** Masks with Earth-fixed coordinates *)
Definition ex_mask : mask (w_G ex_crossing_world) :=
  mk_mask (fun x y => Rleb (-20) x && Rleb x 20 && Rleb (-20) y && Rleb y 20) (fun x y => Rleb (-20) x && Rleb x 20 && Rleb (-20) y && Rleb y 20)
    (fun x y => Rleb (-40) x && Rleb x 40) (fun g => existsb (fun p => Rleb (-20) (px p) && Rleb (px p) 20) g)
    (fun g => match filter (fun p => Rleb (-20) (px p) && Rleb (px p) 20) g with [] => None | l => Some l end).
Lemma ex_times_in : times_in ex_crossing_world ex_mask [0; 1; 2; 3; 4]%Z = [2; 3; 4]%Z.
Proof. unfold times_in, ex_crossing_world, ex_world, ex_mask. cbn [w_ssp w_state m_contains filter ex_lon px py fst snd]. rtest. cbn [andb]. reflexivity. Qed.
Lemma masked_wrong : exists (W : world) sa times i elevation (k : mask (w_G W)) c, picks (sa_instruments sa) 0 i
  /\ clip_keeps (w_clip_order W) /\ (forall x y, m_contains k x y = true -> m_intersects k x y = true)
  /\ times_in W k times <> [] /\ collect_orbit_track W sa times 0 elevation (Some k) c false false false false = Ok [].
Proof.
  exists ex_crossing_world, ex_sat, [0; 1; 2; 3; 4]%Z, ex_instr, 0, ex_mask, ECEF. split; [apply ex_picks|]. split; [apply ex_clip_keeps|]. split; [auto|].
  split; [rewrite ex_times_in; discriminate|].
  rewrite (collect_masked ex_crossing_world ex_sat _ 0 ex_instr) by (first [apply ex_picks | rewrite ex_times_in; discriminate]). rewrite ex_times_in.
  unfold clip_points. cbn [map filter orow_of orbit_row o_geom point_in]. unfold ex_mask, m_intersects, ex_crossing_world, ex_world, w_itrs_xyz, w_clip_order. cbn [px py fst snd]. rtest. reflexivity.
Qed.

(** *** Masks and pointed instruments *)
(** The footprint of a narrow instrument reaches one degree to each side, its field of regard ten. *)
Definition ex_narrow : world :=
  mk_world Z (fun t => t) (fun t => t) (fun t => (IZR t, 0, 500000)) (fun t => (6878137, 0, 0)) (fun t => (0, 6878137, 0)) (fun _ => (0, 7000, 0)) (fun _ => (7000, 0, 0))
    (fun _ => true) (fun _ => (10, 20)) (fun _ => 0) (fun _ _ => 30)
    (R * R) (fun _ e t => (IZR t - 1, IZR t + 1)) (fun _ e t => (IZR t, 0, e)) (fun _ e t ij => (IZR t, 0, e))
    (fun _ e p _ => (px p - 10, px p + 10)) (fun _ _ l _ => (0, 0)) (fun l => (0, 0)) ex_split_line (fun _ l => l).
Definition interval_mask (a b : R) : mask (R * R) :=
  mk_mask (fun x _ => Rleb a x && Rleb x b) (fun x _ => Rleb a x && Rleb x b) (fun x _ => Rleb (a - 10) x && Rleb x (b + 10))
    (fun g => Rleb a (snd g) && Rleb (fst g) b) (fun g => if Rleb a (snd g) && Rleb (fst g) b then Some (Rmax a (fst g), Rmin b (snd g)) else None).
Lemma narrow_wrong : exists (W : world) sa times i elevation (k : mask (w_G W)) code all, picks (sa_instruments sa) 0 i
  /\ clip_keeps (w_clip_order W) /\ (forall g, m_meets k g = true <-> m_cut k g <> None)
  /\ collect_ground_track W sa times 0 elevation None (Crs code) = Ok all /\ filter_some (map (cut_row k) all) <> []
  /\ collect_ground_track W sa times 0 elevation (Some k) (Crs code) = Ok [].
Proof.
  exists ex_narrow, ex_sat, [0; 1]%Z, ex_instr, 0, (interval_mask 5 6), (lit "EPSG:4087"%string).
  exists (track_rows ex_narrow ex_sat ex_instr 0 (Crs (lit "EPSG:4087"%string)) [0; 1]%Z).
  split; [apply ex_picks|]. split; [intros A x; apply Permutation_refl|]. split.
  - intros [a b]. cbn. destruct (Rleb 5 b && Rleb a 6); split; intro H; [discriminate|reflexivity|discriminate|now contradiction H].
  - split; [apply ground_none, ex_picks|]. split.
    + unfold track_rows, cut_row, interval_mask, ex_narrow. cbn. rtest. cbn. discriminate.
    + rewrite (ground_masked ex_narrow ex_sat _ 0 ex_instr) by apply ex_picks. cbn [length Nat.ltb Nat.leb].
      unfold kept, interval_mask, ex_narrow, m_meets, m_buffered, w_footprint, w_ssp, w_state. cbn [filter fst snd px py]. rtest. cbn [andb]. reflexivity.
Qed.

(** *** Orbit numbers *)
Lemma orbit_number_wrong : exists (W : world) sa times elevation src period rows, (0 < period)%Z
  /\ (forall t, w_reported W t = to_ms t) /\ (forall t, In t times -> same_orbit (hd 0%Z times) period (hd 0%Z times) t)
  /\ compute_ground_track W sa times 0 elevation None src MPoint period false = Ok rows /\ length rows = 2%nat.
Proof.
  exists (ex_world ex_lon ex_lit to_ms), ex_sat, [400; 2400]%Z, 0, Spice, 6000000000%Z. eexists. split; [lia|]. split; [reflexivity|]. split.
  - intros t [<-|[<-|[]]]; exists 0%Z; cbn; lia.
  - split; [cbn [compute_ground_track]; unfold point_track; rewrite (ground_none _ ex_sat _ 0 ex_instr) by apply ex_picks; reflexivity|reflexivity].
Qed.
Lemma orbit_number_lemma : forall W sa times idx elevation src period i, picks (sa_instruments sa) idx i -> (0 < period)%Z ->
  (forall t, In t times -> w_reported W t = t) ->
  (forall t, In t times -> (0 <= t - hd 0%Z times < period)%Z) ->
  exists rows, compute_ground_track W sa times idx elevation None src MPoint period false = Ok rows /\ (length rows <= 1)%nat.
Proof.
  intros W sa times idx elevation src period i P Q RE IN. eapply point_orbits_lemma; [eapply ground_none; exact P|exact Q|]. intros r s R1 S1.
  apply in_map_iff in R1, S1. destruct R1 as (t & <- & T), S1 as (u & <- & U). cbn. rewrite (RE t T), (RE u U). exists 0%Z. pose proof (IN t T). pose proof (IN u U). lia.
Qed.
Lemma empty_lemma : forall W sa idx elevation m c v f1 f2 f3 src,
  collect_orbit_track W sa [] idx elevation m c v f1 f2 f3 = Ok [] /\ collect_ground_track W sa [] idx elevation m src = Ok []
  /\ collect_ground_pixels W sa [] idx elevation m = Ok [].
Proof. intros. repeat split. Qed.
Lemma method_lemma : forall W sa times idx elevation m src period d,
  compute_ground_track W sa times idx elevation m src MOther period d = Raise ValueError
  /\ compute_ground_track W sa times idx elevation m Spice MLine period d = Raise ValueError.
Proof. intros. split; reflexivity. Qed.
Definition ex_pixels : pointed := mk_pointed 10 5 0 0 true 3 2 0 0.
Lemma line_fails : exists W sa times elevation code period,
  (0 < period)%Z /\ (exists track, collect_orbit_track W sa times 0 elevation None WGS84 false false false false = Ok track /\ track <> [])
  /\ compute_ground_track W sa times 0 elevation None (Crs code) MLine period false = Raise GEOSError.
Proof.
  exists ex_crossing_world, ex_sat, [3]%Z, 0, (lit "EPSG:4087"%string), 1000%Z. split; [lia|].
  pose proof (collect_none ex_crossing_world ex_sat [3]%Z 0 ex_instr 0 WGS84 false false false false ex_picks) as E. split.
  - eexists. split; [exact E|discriminate].
  - eapply (line_single_lemma _ _ _ _ _ _ _ _ _ _ 0%nat); [lia|exact E|reflexivity|reflexivity|].
    intros j (r & s & _ & J & _). destruct j as [|[|j]]; [reflexivity|discriminate|discriminate].
Qed.
Lemma line_total_lemma : forall W sa times idx elevation code period track,
  (0 < period)%Z -> collect_orbit_track W sa times idx elevation None WGS84 false false false false = Ok track ->
  exists ig, grouped (hd 0%Z times) period track ig
    /\ ((forall g, In g ig -> plain_run (rows_at track g)) ->
        exists rows, compute_ground_track W sa times idx elevation None (Crs code) MLine period false = Ok rows /\ length rows = length ig).
Proof.
  intros W sa times idx elevation code period track P E. destruct (line_lemma W sa times idx elevation code period track P E) as (ig & G & H). exists ig. split; [exact G|].
  intro PR. destruct (H PR) as (rows & Q & F). exists rows. split; [exact Q|]. clear - F. induction F; cbn; congruence.
Qed.
Lemma target_wrong : exists radius distance target point,
  0 < radius /\ radius * great_circle target point <= distance /\ ~ in_target_buffer radius distance (cx target, cy target) (cx point, cy point).
Proof.
  exists 6371000, (6371000 * radians 179), (mk_coord 0 89 None), (mk_coord 180 89 None). split; [lra|].
  destruct (target_pole_lemma 6371000 ltac:(lra)) as [A1 B1]. split; [|exact B1]. eapply Rle_trans; [exact A1|]. unfold radians. pose proof PI_RGT_0. nra.
Qed.
