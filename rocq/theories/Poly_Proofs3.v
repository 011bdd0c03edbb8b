(** Bounds of polygons split at the poles. *)
From Coq Require Import Reals ZArith List Bool Lra Lia.
From Verif Require Import Base BaseFacts RBase RFacts Poly_Model Poly_Spec Poly_Proofs Poly_Proofs2.
Import ListNotations.
Open Scope R_scope.

Section Bounds.
Variables (iv : shape -> bool) (cr : piece -> coord * coord -> bool) (pe : piece -> piece -> bool) (sp : piece -> coord * coord -> list piece).
Hypothesis SB : splits_box sp.
Hypothesis CM : crosses_meridian cr.
Hypothesis PE : forall g, pe g g = true.

Definition sided (la lb : R) (p : poly) : Prop := in_box (-180) 0 la lb p \/ in_box 0 180 la lb p.
Lemma meridian_box a b la1 lb1 la2 lb2 parts0 :
  a <> b -> (a <= la2 /\ lb2 < b) \/ (b < la2 /\ lb2 <= a) ->
  (forall g, In g parts0 -> piece_all (in_box (-180) 180 la1 lb1) g \/ piece_all (in_box (-180) 180 la2 lb2) g) ->
  forall g, In g (split_meridian cr pe sp (xy 0 a, xy 0 b) parts0) ->
    piece_all (in_box (-180) 180 la1 lb1) g \/ piece_all (sided la2 lb2) g.
Proof.
  intros D L H. unfold split_meridian. set (line := (xy 0 a, xy 0 b)).
  set (done := fun g => piece_all (in_box (-180) 180 la1 lb1) g \/ piece_all (sided la2 lb2) g).
  assert (S : forall g h, In g parts0 -> In h (sp g line) -> done h).
  { intros g h G Hh. destruct SB as (B1 & _ & _ & B4). destruct (H g G) as [K|K].
    - left. exact (B1 _ _ _ _ _ _ _ K Hh).
    - right. assert (X : Rmin a b <= la2 /\ lb2 <= Rmax a b).
      { unfold Rmin, Rmax. destruct (Rle_dec a b); lra. }
      destruct (B4 g 0 a b _ _ _ _ h D (proj1 X) (proj2 X) K Hh) as [M|M]; intros p P; [left|right]; now apply M. }
  assert (K : forall todo parts, (forall g, In g todo -> In g parts0) -> (forall g, In g parts -> In g todo \/ done g) ->
    forall g, In g (fold_left (fun parts part => if cr part line then filter (fun g => negb (pe g part)) parts ++ sp part line else parts) todo parts) -> done g).
  { induction todo as [|part todo IH]; intros parts T P g G.
    - destruct (P g G) as [[]|Dn]. exact Dn.
    - cbn [fold_left] in G. revert G. apply IH; [intros x X; apply T; now right|]. clear g. intros g G. destruct (cr part line) eqn:E.
      + apply in_app_iff in G. destruct G as [G|G]; [|right; exact (S part g (T part (or_introl eq_refl)) G)].
        apply filter_In in G. destruct G as [G N]. destruct (P g G) as [[<-|I]|Dn]; [|now left|now right].
        rewrite PE in N. discriminate.
      + destruct (P g G) as [[<-|I]|Dn]; [|now left|now right]. right. destruct (H part (T part (or_introl eq_refl))) as [Q|Q]; [now left|right].
        exact (CM part 0 a b _ _ _ _ L Q E). }
  apply K; [tauto|]. intros g G. now left.
Qed.
Lemma sided_one_side la lb p : sided la lb p -> one_side p /\ lat_within la lb p.
Proof. intros [[A B]|[A B]]; (split; [|exact B]); [now left|now right]. Qed.
Lemma convert_in l q : In q (geoms (convert_collection l)) -> exists g, In g l /\ In q (polygons_of [g]).
Proof. intro Q. apply convert_geoms in Q. now apply polygons_in. Qed.
Lemma piece_single (P : poly -> Prop) p : P p -> piece_all P (PShape (SPoly p)).
Proof. intros H q Q. cbn in Q. destruct Q as [<-|[]]. exact H. Qed.
Lemma box_weaken lo hi la lb la' lb' p : la' <= la -> lb <= lb' -> in_box lo hi la lb p -> in_box lo hi la' lb' p.
Proof. intros A B [H1 H2]. split; [exact H1|]. intros c C. specialize (H2 c C). lra. Qed.
Lemma above_dec p : (forall c, In c (p_ext p) -> cy c <= 90) \/ exists c, In c (p_ext p) /\ 90 < cy c.
Proof.
  destruct (forallb (fun c => Rleb (cy c) 90) (p_ext p)) eqn:E.
  - left. rewrite forallb_forall in E. intros c C. now apply Rleb_spec, E.
  - right. apply not_true_iff_false in E. clear -E. induction (p_ext p) as [|c l IH]; [now exfalso; apply E|]. cbn in E.
    destruct (Rleb (cy c) 90) eqn:F; [|apply Rleb_false in F; exists c; split; [now left|exact F]].
    destruct IH as (d & D & H); [exact E|]. exists d. split; [now right|exact H].
Qed.
Lemma below_dec p : (forall c, In c (p_ext p) -> -90 <= cy c) \/ exists c, In c (p_ext p) /\ cy c < -90.
Proof.
  destruct (forallb (fun c => Rleb (-90) (cy c)) (p_ext p)) eqn:E.
  - left. rewrite forallb_forall in E. intros c C. now apply Rleb_spec, E.
  - right. apply not_true_iff_false in E. clear -E. induction (p_ext p) as [|c l IH]; [now exfalso; apply E|]. cbn in E.
    destruct (Rleb (-90) (cy c)) eqn:F; [|apply Rleb_false in F; exists c; split; [now left|exact F]].
    destruct IH as (d & D & H); [exact E|]. exists d. split; [now right|exact H].
Qed.
Lemma over_parts_bound f s (P : poly -> Prop) : (forall p, In p (geoms s) -> exists t, f p = Ok t /\ forall q, In q (geoms t) -> P q) ->
  exists t, over_parts f s = Ok t /\ forall q, In q (geoms t) -> P q.
Proof.
  destruct s as [p|l]; intro H; [exact (H p (or_introl eq_refl))|]. cbn [over_parts geoms] in *.
  destruct (mapM_total f l) as [ts T]; [intros p Hp; destruct (H p Hp) as (t & E & _); now exists t|]. rewrite T. cbn [bind].
  eexists. split; [reflexivity|]. intros q Q. cbn [geoms] in Q. apply in_flat_map in Q. destruct Q as (t & Ht & Q).
  apply mapM_ok in T. clear -T H Ht Q. induction T as [|p u l ts E T IH]; [destruct Ht|]. destruct Ht as [<-|Ht].
  - destruct (H p (or_introl eq_refl)) as (t & E' & K). assert (t = u) by congruence. subst t. now apply K.
  - apply IH; [intros x X; apply H; now right|exact Ht].
Qed.
Lemma wrap_north_bound l hi q : -90 <= hi < 180 -> l <= -90 -> (in_box (-180) 180 l 90 q \/ sided 90 hi q) ->
  exists t, wrap_north_poly iv q = Ok t /\ forall r, In r (geoms t) -> bounded_or_invalid iv l 90 r.
Proof.
  intros Hh Hl H. destruct (above_dec q) as [A|A].
  - pose proof (wrap_north_inside iv q A) as E. exists (SPoly q). split; [exact E|]. intros r [<-|[]]. left. destruct H as [H|H]; [exact H|].
    destruct (sided_one_side _ _ _ H) as [O B]. split.
    + intros c C. destruct O as [O|O]; specialize (O c C); lra.
    + intros c C. specialize (B c C). specialize (A c C). lra.
  - destruct (wrap_north_lemma q A) as (w & S & LA & LO & E). destruct H as [H|H].
    { exfalso. destruct A as (c & C & A). destruct H as [_ H]. specialize (H c C). lra. }
    destruct (sided_one_side _ _ _ H) as [O B].
    assert (W : in_box (-180) 180 l 90 w).
    { split; [now apply LO|]. assert (L2 : lat_within (-90) 270 q) by (intros c C; specialize (B c C); lra).
      intros c C. specialize (LA L2 c C). lra. }
    exists (SPoly (if iv (SPoly w) then w else q)). split; [exact (E iv)|]. intros r [<-|[]]. destruct (iv (SPoly w)) eqn:V; [now left|].
    right. exists w. auto.
Qed.
Lemma split_north_bound l hi p : l <= -90 -> 90 <= hi < 180 -> in_box (-180) 180 l hi p ->
  exists t, split_north_poly iv cr pe sp p = Ok t /\ forall q, In q (geoms t) -> bounded_or_invalid iv l 90 q.
Proof.
  intros Hl Hh H. unfold split_north_poly. destruct (forallb _ _) eqn:F.
  - exists (SPoly p). split; [reflexivity|]. intros q [<-|[]]. left. rewrite forallb_forall in F. assert (F2 : forall c, In c (p_ext p) -> cy c <= 90) by (intros c C; now apply Rleb_spec, F).
    destruct H as [H1 H2]. split; [exact H1|]. intros c C. specialize (F2 c C). specialize (H2 c C). lra.
  - unfold wrap_north. apply over_parts_bound. intros q Q. apply wrap_north_bound with (hi := hi); [lra|lra|].
    apply convert_in in Q. destruct Q as (g & G & Q).
    destruct (meridian_box 90 180 l 90 90 hi (sp (PShape (SPoly p)) (xy (-360) 90, xy 360 90)) ltac:(lra) ltac:(lra)) with (g := g) as [K|K]; [|exact G|left; now apply K|right; now apply K].
    intros h Hh'. destruct SB as (_ & _ & B3 & _). apply (B3 (PShape (SPoly p)) (-360) 360 90 (-180) 180 l hi h); [lra|lra|lra|now apply piece_single|exact Hh'].
Qed.
Lemma wrap_south_bound lo h q : -180 < lo -> 90 <= h -> p_ints q = [] -> (in_box (-180) 180 (-90) h q \/ sided lo (-90) q) ->
  exists t, wrap_south_poly iv q = Ok t /\ forall r, In r (geoms t) -> bounded_or_invalid iv (-90) h r.
Proof.
  intros Hl Hh PI0 H. destruct (below_dec q) as [A|A].
  - pose proof (wrap_south_inside iv q A) as E. exists (SPoly q). split; [exact E|]. intros r [<-|[]]. left. destruct H as [H|H]; [exact H|].
    destruct (sided_one_side _ _ _ H) as [O B]. split.
    + intros c C. destruct O as [O|O]; specialize (O c C); lra.
    + intros c C. specialize (B c C). specialize (A c C). lra.
  - destruct (wrap_south_lemma q PI0 A) as (w & S & LA & LO & E). destruct H as [H|H].
    { exfalso. destruct A as (c & C & A). destruct H as [_ H]. specialize (H c C). lra. }
    destruct (sided_one_side _ _ _ H) as [O B].
    assert (W : in_box (-180) 180 (-90) h w).
    { split; [now apply LO|]. assert (L2 : lat_within (-270) 90 q) by (intros c C; specialize (B c C); lra).
      intros c C. specialize (LA L2 c C). lra. }
    exists (SPoly (if iv (SPoly w) then w else q)). split; [exact (E iv)|]. intros r [<-|[]]. destruct (iv (SPoly w)) eqn:V; [now left|].
    right. exists w. auto.
Qed.
Lemma meridian_holes line parts0 : (forall g, In g parts0 -> piece_all (fun p => p_ints p = []) g) ->
  forall g, In g (split_meridian cr pe sp line parts0) -> piece_all (fun p => p_ints p = []) g.
Proof.
  intro H. unfold split_meridian.
  assert (K : forall todo parts, (forall g, In g todo -> In g parts0) -> (forall g, In g parts -> piece_all (fun p => p_ints p = []) g) ->
    forall g, In g (fold_left (fun parts part => if cr part line then filter (fun g => negb (pe g part)) parts ++ sp part line else parts) todo parts) -> piece_all (fun p => p_ints p = []) g).
  { induction todo as [|part todo IH]; intros parts T P g G; [now apply P|]. cbn [fold_left] in G. revert G. apply IH; [intros x X; apply T; now right|].
    clear g. intros g G. destruct (cr part line); [|now apply P]. apply in_app_iff in G. destruct G as [G|G].
    - apply filter_In in G. now apply P.
    - destruct SB as (_ & B2 & _). exact (B2 part line g (H part (T part (or_introl eq_refl))) G). }
  apply K; [tauto|exact H].
Qed.
Lemma split_south_bound lo h p : -180 < lo <= -90 -> 90 <= h -> p_ints p = [] -> in_box (-180) 180 lo h p ->
  exists t, split_south_poly iv cr pe sp p = Ok t /\ forall q, In q (geoms t) -> bounded_or_invalid iv (-90) h q.
Proof.
  intros Hl Hh PI0 H. unfold split_south_poly. destruct (forallb _ _) eqn:F.
  - exists (SPoly p). split; [reflexivity|]. intros q [<-|[]]. left. rewrite forallb_forall in F. assert (F2 : forall c, In c (p_ext p) -> -90 <= cy c) by (intros c C; now apply Rleb_spec, F).
    destruct H as [H1 H2]. split; [exact H1|]. intros c C. specialize (F2 c C). specialize (H2 c C). lra.
  - unfold wrap_south. apply over_parts_bound. intros q Q. apply convert_in in Q. destruct Q as (g & G & Q).
    apply wrap_south_bound with (lo := lo); [lra|lra| |].
    + refine (meridian_holes _ _ _ g G q Q). intros k Hk. destruct SB as (_ & B2 & _). exact (B2 (PShape (SPoly p)) _ k (piece_single _ p PI0) Hk).
    + destruct (meridian_box (-90) (-180) (-90) h lo (-90) (sp (PShape (SPoly p)) (xy (-360) (-90), xy 360 (-90))) ltac:(lra) ltac:(lra)) with (g := g) as [K|K]; [|exact G|left; now apply K|right; now apply K].
      intros k Hk. destruct SB as (_ & _ & B3 & _).
      destruct (B3 (PShape (SPoly p)) (-360) 360 (-90) (-180) 180 lo h k) as [M|M]; [lra|lra|lra|now apply piece_single|exact Hk|now right|now left].
Qed.
Lemma split_north_all l hi s : l <= -90 -> 90 <= hi < 180 -> (forall p, In p (geoms s) -> in_box (-180) 180 l hi p) ->
  exists t, split_north iv cr pe sp s = Ok t /\ forall q, In q (geoms t) -> bounded_or_invalid iv l 90 q.
Proof. intros A B H. apply over_parts_bound. intros p P. apply split_north_bound with (hi := hi); auto. Qed.
Lemma split_south_all lo h s : -180 < lo <= -90 -> 90 <= h -> (forall p, In p (geoms s) -> p_ints p = [] /\ in_box (-180) 180 lo h p) ->
  exists t, split_south iv cr pe sp s = Ok t /\ forall q, In q (geoms t) -> bounded_or_invalid iv (-90) h q.
Proof. intros A B H. apply over_parts_bound. intros p P. apply split_south_bound with (lo := lo); [lra|lra|apply H, P|apply H, P]. Qed.
End Bounds.

(** ** Oracles that meet the contracts *)
Definition coord_eq_dec (a b : coord) : {a = b} + {a <> b}.
Proof. decide equality; try apply Req_EM_T. decide equality; apply Req_EM_T. Defined.
Definition poly_eq_dec (a b : poly) : {a = b} + {a <> b}.
Proof. decide equality; apply list_eq_dec; [apply list_eq_dec|]; apply coord_eq_dec. Defined.
Definition piece_eq_dec (a b : piece) : {a = b} + {a <> b}.
Proof. decide equality. decide equality; [apply poly_eq_dec|apply list_eq_dec, poly_eq_dec]. Defined.
Definition ex_eqb (g h : piece) : bool := if piece_eq_dec g h then true else false.
Definition cut (f : coord -> coord) (keep : coord -> bool) (p : poly) : list piece :=
  if existsb keep (p_ext p) then [PShape (SPoly (mk_poly (map f (p_ext p)) []))] else [].
Definition ex_cut (g : piece) (l : coord * coord) : list piece :=
  let (u, v) := l in
  if Req_EM_T (cy u) (cy v) then
    flat_map (fun p => cut (fun c => xy (cx c) (Rmin (cy c) (cy u))) (fun c => Rleb (cy c) (cy u)) p
                       ++ cut (fun c => xy (cx c) (Rmax (cy c) (cy u))) (fun c => Rleb (cy u) (cy c)) p) (polygons_of [g])
  else
    flat_map (fun p => cut (fun c => xy (Rmin (cx c) (cx u)) (cy c)) (fun c => Rleb (cx c) (cx u)) p
                       ++ cut (fun c => xy (Rmax (cx c) (cx u)) (cy c)) (fun c => Rleb (cx u) (cx c)) p) (polygons_of [g]).
Definition ex_crosses (g : piece) (l : coord * coord) : bool :=
  existsb (fun p => existsb (fun c => Rltb (cx c) (cx (fst l))) (p_ext p) && existsb (fun c => Rltb (cx (fst l)) (cx c)) (p_ext p)) (polygons_of [g]).
Lemma cut_in f keep p h : In h (cut f keep p) -> (exists c, In c (p_ext p) /\ keep c = true) /\ h = PShape (SPoly (mk_poly (map f (p_ext p)) [])).
Proof. unfold cut. destruct (existsb keep (p_ext p)) eqn:E; [|intros []]. intros [<-|[]]. apply existsb_exists in E. now split. Qed.
Lemma cut_box f keep p h lo hi la lb : In h (cut f keep p) ->
  (forall k, In k (p_ext p) -> keep k = true -> forall c, In c (p_ext p) -> lo <= cx (f c) <= hi /\ la <= cy (f c) <= lb) -> piece_all (in_box lo hi la lb) h.
Proof.
  intros H K. apply cut_in in H. destruct H as [(k & Hk & E) ->]. apply piece_single. split; intros c C; cbn in C; apply in_map_iff in C; destruct C as (d & <- & D);
    destruct (K k Hk E d D); assumption.
Qed.
Ltac mm := unfold Rmin, Rmax; repeat match goal with |- context [Rle_dec ?a ?b] => destruct (Rle_dec a b) end; lra.
Lemma ex_cut_box : splits_box ex_cut.
Proof.
  split; [|split; [|split]].
  - intros g [u v] lo hi la lb h B H. unfold ex_cut in H. destruct (Req_EM_T _ _) as [E|E]; apply in_flat_map in H; destruct H as (p & P & H); destruct (B p P) as [B1 B2];
      apply in_app_iff in H; destruct H as [H|H]; (eapply cut_box; [exact H|]); intros k Hk Ek c C; apply Rleb_spec in Ek; pose proof (B1 k Hk); pose proof (B2 k Hk);
      pose proof (B1 c C); pose proof (B2 c C); cbn [cx cy xy]; split; mm.
  - intros g [u v] h B H p P. unfold ex_cut in H. destruct (Req_EM_T _ _) as [E|E]; apply in_flat_map in H; destruct H as (q & Q & H); apply in_app_iff in H;
      destruct H as [H|H]; apply cut_in in H; destruct H as [_ ->]; cbn in P; destruct P as [<-|[]]; reflexivity.
  - intros g a b c lo hi la lb h AB A1 B1 B H. unfold ex_cut in H. cbn [cy xy cx] in H. destruct (Req_EM_T c c) as [_|N]; [|congruence].
    apply in_flat_map in H. destruct H as (p & P & H). destruct (B p P) as [C1 C2]. apply in_app_iff in H. destruct H as [H|H]; [left|right]; (eapply cut_box; [exact H|]);
      intros k Hk Ek d D; apply Rleb_spec in Ek; pose proof (C1 k Hk); pose proof (C2 k Hk); pose proof (C1 d D); pose proof (C2 d D); cbn [cx cy xy]; split; mm.
  - intros g x a b lo hi la lb h AB A1 B1 B H. unfold ex_cut in H. cbn [cy xy cx] in H. destruct (Req_EM_T a b) as [N|_]; [congruence|].
    apply in_flat_map in H. destruct H as (p & P & H). destruct (B p P) as [C1 C2]. apply in_app_iff in H. destruct H as [H|H]; [left|right]; (eapply cut_box; [exact H|]);
      intros k Hk Ek d D; apply Rleb_spec in Ek; pose proof (C1 k Hk); pose proof (C2 k Hk); pose proof (C1 d D); pose proof (C2 d D); cbn [cx cy xy]; split; mm.
Qed.
Lemma existsb_false {A} (f : A -> bool) l : existsb f l = false -> forall x, In x l -> f x = false.
Proof. intros E x X. destruct (f x) eqn:F; [|reflexivity]. rewrite <- E. symmetry. apply existsb_exists. now exists x. Qed.
Lemma ex_crosses_meridian : crosses_meridian ex_crosses.
Proof.
  intros g x a b lo hi la lb L B E p P. unfold ex_crosses in E. pose proof (existsb_false _ _ E p P) as F. cbn [fst cx xy] in F. apply andb_false_iff in F.
  destruct (B p P) as [B1 B2]. destruct F as [F|F]; [right|left]; (split; [|exact B2]); intros c C; pose proof (existsb_false _ _ F c C) as G; apply Rltb_false in G;
    specialize (B1 c C); lra.
Qed.
Lemma ex_eqb_refl g : ex_eqb g g = true.
Proof. unfold ex_eqb. destruct (piece_eq_dec g g); congruence. Qed.

Lemma split_south_hole_lemma : exists p, in_box (-180) 180 (-170) 90 p /\ (exists c, In c (p_ext p) /\ cy c < -90)
  /\ forall iv cr pe sp, (forall d, cr (PShape (SPoly p)) d = false) -> (forall d, sp (PShape (SPoly p)) d = [PShape (SPoly p)]) ->
     split_south iv cr pe sp (SPoly p) = Raise ValueError.
Proof.
  exists (mk_poly (box 10 50 (-150) (-100)) [box 20 40 (-140) (-110)]). split; [|split].
  - split; intros c C; cbn in C; repeat (destruct C as [<-|C]; [cbn; lra|]); destruct C.
  - exists (xy 10 (-150)). split; [now left|cbn; lra].
  - intros iv cr pe sp C S. cbn. unfold split_south_poly. destruct (forallb _ _) eqn:F.
    { exfalso. rewrite forallb_forall in F. specialize (F (xy 10 (-150)) (or_introl eq_refl)). apply Rleb_spec in F. cbn in F. lra. }
    rewrite S. unfold split_meridian. cbn [fold_left]. rewrite C. cbn [convert_collection flat_map app].
    apply (wrap_south_hole iv _ (box 20 40 (-140) (-110))); [now left|discriminate|]. exists (xy 10 (-150)). split; [now left|cbn; lra].
Qed.
