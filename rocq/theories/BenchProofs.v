(** What the benchmarks do to shapes: splitting their edges, surrogates of their own. *)
From Verif Require Import Base Num GeoModel HazardModel QTModel TransfModel HpgModel CdeModel CdeSpec Instances PolyModel LayoutModel ProblemModel LbfModel
  ParserModel SimplModel ParseModel BenchModel GeoSpec ShapeSpec PlaceSpec SimplSpec SimpleSpec BenchSpec.
From Coq Require Import Reals List Bool Arith Lra Lia Psatz Permutation.
From Verif Require Import BaseProofs QTProofs ParityProofs GeoPrimProofs GeoRectProofs PipProofs RegionProofs RigidProofs XformProofs NormProofs BoundProofs HullProofs
  PoleProofs ConstructProofs SimpleProofs SimpleThmProofs CdeGeoThmProofs PierProofs PierGenProofs ParseThmProofs CombSurrProofs CombEngineProofs SplitProofs.
From Verif Require Import GeoModel HazardModel QTModel TransfModel CdeModel CdeSpec GeoSpec PlaceSpec BenchSpec.
Import ListNotations.
Local Open Scope R_scope.
#[local] Existing Instance RNum.
#[local] Existing Instance RTrig.

Lemma split_outline : forall m l, (1 <= m)%nat -> same_outline l (split m l).
Proof. intros m l H. split; intros p; [symmetry; apply border_split, H|symmetry; apply even_odd_split, H]. Qed.
Lemma split_even : forall m l, (1 <= m)%nat -> evenly_split m l (split m l).
Proof.
  intros m l H. split; [apply split_length, H|]. unfold split. intros k e i. revert k. generalize (ring l). clear l.
  induction l as [|a r IH]; intros k E L; [destruct k; discriminate|]. cbn [flat_map]. destruct k as [|k].
  - injection E as ->. cbn [Nat.mul Nat.add]. rewrite split_edge_map by exact H. rewrite nth_error_app1 by (rewrite map_length, seq_length; exact L).
    rewrite nth_error_map, nth_error_nth' with (d := 0%nat) by (rewrite seq_length; exact L). rewrite seq_nth by exact L. reflexivity.
  - cbn [nth_error] in E. assert (Len : length (split_edge m a) = m) by (rewrite split_edge_map, map_length, seq_length by exact H; reflexivity).
    rewrite nth_error_app2 by (rewrite Len; cbn; lia). rewrite Len. replace (S k * m + i - m)%nat with (k * m + i)%nat by (cbn; lia). apply IH; auto.
Qed.

(** *** the poles depend on the outline only *)
Section Alike.
  Variables s s' : poly R.
  Hypothesis So : sound_poly s.
  Hypothesis So' : sound_poly s'.
  Hypothesis Ne : p_pts s <> [].
  Hypothesis Ne' : p_pts s' <> [].
  Hypothesis Bb : p_bbox s = p_bbox s'.
  Hypothesis Al : same_outline (p_pts s) (p_pts s').

  (** the value a node gets *)
  Lemma node_value : forall z, sound_poly z -> p_pts z <> [] -> forall poles bb, exists D x,
    pnode_new z poles bb = Ok (PN bb (r_diameter bb / 2) (if x && forallb (fun k => negb (cp_collides k (r_centroid bb))) poles then D else - D)) /\
    (on_border (p_pts z) (r_centroid bb) \/ x = even_odd (p_pts z) (r_centroid bb)) /\
    (forall q, on_border (p_pts z) q -> D <= edist (r_centroid bb) q) /\
    (forall k, In k poles -> D <= Rabs (edist (r_centroid bb) (ccen k) - crad k)) /\
    ((exists q, on_border (p_pts z) q /\ D = edist (r_centroid bb) q) \/ exists k, In k poles /\ D = Rabs (edist (r_centroid bb) (ccen k) - crad k)).
  Proof.
    clear. intros s So Ne poles bb. destruct So as (Nd & Bx). assert (W : wf_poly s) by (apply wf_ring; exact Nd).
    unfold pnode_new. set (c := r_centroid bb).
    rewrite (pp_collides_ok s c W). cbn [rbind].
    rewrite (BaseProofs.rmapM_ok _ (fun i => e_dist (edge_at s i) c)).
    2: { intros i Hi. unfold edge_indices in Hi. apply in_seq in Hi. rewrite (get_edge_at s i W) by lia. reflexivity. }
    cbn [rbind]. rewrite <- (map_map (edge_at s) (fun e => e_dist e c)), (map_edge_at s W).
    set (ds := map (fun e => e_dist e c) (ring (p_pts s)) ++ map (fun k => snd (cp_dist_border k c)) poles).
    assert (exists x r, ds = x :: r) as (x & r & Eds).
    { unfold ds. destruct (p_pts s) as [|a [|b r]]; [congruence|cbn; eauto|cbn; eauto]. }
    change (map (fun e => e_dist e c) (ring (p_pts s)) ++ map (fun k => snd (cp_dist_border k c)) poles) with ds. rewrite Eds.
    cbn [rbind]. destruct (fmin_fold r x) as (I & M). rewrite <- Eds in I, M.
    change (fold_left fmin r x) with (fold_left Rmin r x). set (D := fold_left Rmin r x) in *. clearbody D. clear Eds.
    exists D, (pp_pure s c). split; [reflexivity|]. split; [|split; [|split]].
    - destruct (on_border_dec (p_pts s) c) as [O|O]; [left; exact O|right; apply pip_pure; auto].
    - intros q (e & He & Hq). eapply Rle_trans; [apply (M (e_dist e c)); unfold ds; apply in_app_iff; left; apply (in_map (fun e => e_dist e c)), He|].
      destruct (e_dist_ok e c) as (_ & L). apply L, Hq.
    - intros k Hk. rewrite <- cp_border_val. apply M. unfold ds. apply in_app_iff. right.
      apply (in_map (fun k => snd (cp_dist_border k c))), Hk.
    - unfold ds in I. apply in_app_iff in I. destruct I as [I|I]; apply in_map_iff in I.
      + destruct I as (e & E & He). destruct (e_dist_ok e c) as ((q & Hq & E') & _). left. exists q. split; [exists e; auto|congruence].
      + destruct I as (k & E & Hk). right. exists k. rewrite <- cp_border_val. auto.
  Qed.
  Lemma node_alike : forall poles bb, pnode_new s poles bb = pnode_new s' poles bb.
  Proof.
    intros poles bb. destruct (node_value s So Ne poles bb) as (D & x & -> & X & Me & Mk & At).
    destruct (node_value s' So' Ne' poles bb) as (D' & x' & -> & X' & Me' & Mk' & At').
    destruct Al as (B & P). set (c := r_centroid bb) in *.
    assert (ED : D = D').
    { apply Rle_antisym.
      - destruct At' as [(q & O & ->)|(k & Hk & ->)]; [apply Me, B, O|apply Mk, Hk].
      - destruct At as [(q & O & ->)|(k & Hk & ->)]; [apply Me', B, O|apply Mk', Hk]. }
    subst D'. f_equal. f_equal. destruct (on_border_dec (p_pts s) c) as [O|O].
    - assert (D0 : D = 0).
      { apply Rle_antisym; [specialize (Me _ O); rewrite edist_refl in Me; exact Me|].
        destruct At as [(q & _ & ->)|(k & _ & ->)]; [apply edist_nonneg|apply Rabs_pos]. }
      subst D. change (fneg 0) with (- 0). rewrite Ropp_0. destruct (_ && _), (_ && _); reflexivity.
    - destruct X as [X| ->]; [contradiction|]. destruct X' as [X'| ->]; [apply B in X'; contradiction|]. rewrite P. reflexivity.
  Qed.
  Lemma rmapM_same : forall {A B} (f g : A -> res B) l, (forall x, f x = g x) -> rmapM f l = rmapM g l.
  Proof. intros A B f g l H. induction l as [|x l IH]; cbn [rmapM]; [reflexivity|]. rewrite H, IH. reflexivity. Qed.
  Lemma visit_alike : forall poles lvl acc n, poi_visit s poles lvl acc n = poi_visit s' poles lvl acc n.
  Proof.
    intros poles lvl [b q] n. unfold poi_visit. destruct (flt _ _); destruct (flt _ _); try reflexivity; destruct lvl; try reflexivity;
      rewrite (rmapM_same _ _ _ (node_alike poles)); reflexivity.
  Qed.
  Lemma rfold_same : forall {A B} (f g : B -> A -> res B) l b, (forall b x, f b x = g b x) -> rfold f l b = rfold g l b.
  Proof. intros A B f g l. induction l as [|x l IH]; intros b H; cbn [rfold]; [reflexivity|]. rewrite H. destruct (g b x); cbn [rbind]; [apply IH, H|reflexivity]. Qed.
  Lemma levels_alike : forall poles lvl b q, poi_levels s poles lvl b q = poi_levels s' poles lvl b q.
  Proof.
    intros poles lvl. induction lvl as [|lvl IH]; intros b q; cbn [poi_levels]; rewrite (rfold_same _ _ _ _ (visit_alike poles _)); [reflexivity|].
    destruct (rfold _ _ _) as [[b' q']|]; cbn [rbind]; [apply IH|reflexivity].
  Qed.
  Lemma pole_alike : forall depth poles, next_pole depth s poles = next_pole depth s' poles.
  Proof.
    intros depth poles. unfold next_pole. rewrite Bb, node_alike. destruct (pnode_new s' _ _) as [n|]; cbn [rbind]; [|reflexivity].
    rewrite levels_alike. reflexivity.
  Qed.
  Lemma more_alike : forall n pi goal poles total, more_poles n pi goal s poles total = more_poles n pi goal s' poles total.
  Proof.
    induction n as [|n IH]; intros pi goal poles total; cbn [more_poles]; [reflexivity|]. unfold generate_next_pole. rewrite pole_alike.
    destruct (next_pole _ s' poles) as [c|]; cbn [rbind]; [|reflexivity]. destruct (flt _ _); [reflexivity|apply IH].
  Qed.
  Lemma poles_alike : p_area s = p_area s' -> p_poi s = p_poi s' -> forall pi n goal, additional_poles pi s n goal = additional_poles pi s' n goal.
  Proof. intros A P pi n goal. unfold additional_poles. rewrite A, P, more_alike. reflexivity. Qed.
End Alike.

(** *** [multiply_edge_count] *)
Lemma poly_new_norm : forall l, (3 <= length l)%nat -> NoDup l -> 0 < shoelace l ->
  poly_new l = (diam <- calculate_diameter l ;; poi <- calculate_poi l diam ;; Ok (Poly l (bbox_of_points l) (shoelace l) diam poi None)).
Proof.
  intros l L ND A. unfold poly_new. destruct (Nat.leb 3 (length l)) eqn:Q; [|apply Nat.leb_nle in Q; lia]. cbn [rassert rbind].
  rewrite (full_unique l [] ND) by (intros x _ []). rewrite Nat.eqb_refl. cbn [rassert rbind]. rewrite area_ok. cbn [feq flt fneg RNum RNumT f0].
  destruct (Reqb (shoelace l) 0) eqn:Z; [apply Reqb_spec in Z; lra|].
  destruct (Rltb (shoelace l) 0) eqn:Lt; [apply Rltb_spec in Lt; lra|]. reflexivity.
Qed.
Lemma edges_ring : forall s, sound_poly s -> rmapM (get_edge s) (edge_indices s) = Ok (ring (p_pts s)).
Proof.
  intros s (Nd & _). assert (W : wf_poly s) by (apply wf_ring; exact Nd).
  rewrite (BaseProofs.rmapM_ok _ (edge_at s)); [rewrite (map_edge_at s W); reflexivity|].
  intros i Hi. unfold edge_indices in Hi. apply in_seq in Hi. apply (get_edge_at s i W). lia.
Qed.
Lemma poi_alike : forall l l' d d', (3 <= length l)%nat -> NoDup l -> (3 <= length l')%nat -> NoDup l' -> shoelace l <> 0 -> shoelace l' <> 0 ->
  bbox_of_points l = bbox_of_points l' -> same_outline l l' -> calculate_poi l d = calculate_poi l' d'.
Proof.
  intros l l' d d' L ND L' ND' A A' B S. unfold calculate_poi, generate_next_pole.
  destruct (dummy_sound l d ND L A) as (So & NE). destruct (dummy_sound l' d' ND' L' A') as (So' & NE').
  apply pole_alike; auto.
Qed.
(** the outcome of splitting: that of constructing the polygon anew, with the outline cut
    into pieces *)
Lemma multiply_ok : forall eqa s m, (forall x, eqa x x = true) -> made s -> simple (p_pts s) -> (1 <= m)%nat ->
  match poly_new (p_pts s) with
  | Ok s0 => exists s', multiply_edge_count eqa s m = Ok s' /\ evenly_split m (p_pts s) (p_pts s') /\ same_outline (p_pts s) (p_pts s') /\
      p_bbox s' = p_bbox s /\ p_area s' = p_area s /\ p_poi s' = p_poi s0 /\ p_surr s' = None /\ simple (p_pts s') /\ made s'
  | Panic => multiply_edge_count eqa s m = Panic
  end.
Proof.
  intros eqa s m Eq Md Sm H. pose proof (md_norm _ Md) as Nm. destruct (made_sound s Md) as (So & NE).
  pose proof (nm_size _ Nm) as L. pose proof (nm_distinct _ Nm) as ND.
  assert (A : 0 < shoelace (p_pts s)) by (rewrite <- (nm_area _ Nm); apply (nm_positive _ Nm)).
  unfold multiply_edge_count. rewrite (edges_ring s So). cbn [rbind]. fold (split m (p_pts s)).
  pose proof (split_simple m _ H Sm) as (L' & ND' & Mt'). set (l' := split m (p_pts s)) in *.
  assert (A' : shoelace l' = shoelace (p_pts s)) by (apply shoelace_split, H).
  assert (Bx : smallest_box (p_bbox s) l') by (apply box_split; [exact H|apply (nm_box _ Nm)]).
  assert (NE' : l' <> []) by (intros E; rewrite E in L'; cbn in L'; lia).
  assert (B0 : bbox_of_points (p_pts s) = p_bbox s) by (eapply box_unique; [apply bbox_ok, NE|apply (nm_box _ Nm)]).
  assert (B1 : bbox_of_points l' = p_bbox s) by (eapply box_unique; [apply bbox_ok, NE'|exact Bx]).
  pose proof (poly_new_norm (p_pts s) L ND A) as E0. pose proof (poly_new_norm l' L' ND' ltac:(lra)) as E1.
  destruct (diameter_total (p_pts s) ltac:(lia)) as (d & Ed0). destruct (diameter_total l' ltac:(lia)) as (d' & Ed1).
  rewrite Ed0 in E0. rewrite Ed1 in E1. cbn [rbind] in E0, E1.
  destruct (split_outline m (p_pts s) H) as (O1 & O2). fold l' in O1, O2.
  rewrite (poi_alike l' (p_pts s) d' d) in E1; try assumption; try lra; [|congruence|split; intros q; [symmetry; apply O1|symmetry; apply O2]].
  rewrite E0. destruct (calculate_poi (p_pts s) d) as [c|] eqn:Ec; cbn [rbind] in E0, E1 |- *; [|rewrite E1; reflexivity].
  destruct (new_made _ _ E1) as (Md' & _). rewrite E1. cbn [rbind p_area]. rewrite A', <- (nm_area _ Nm), Eq. cbn [rassert rbind]. rewrite B1, A', <- (nm_area _ Nm) in Md'.
  eexists. split; [rewrite B1; reflexivity|]. cbn [p_pts p_bbox p_area p_poi p_surr].
  split; [apply split_even, H|]. split; [split; assumption|]. repeat (split; [reflexivity|]). split; [split; auto|exact Md'].
Qed.
Lemma multiply_zero : forall eqa s, sound_poly s -> multiply_edge_count eqa s 0 = Panic.
Proof.
  intros eqa s So. unfold multiply_edge_count. rewrite (edges_ring s So). cbn [rbind].
  assert (E : flat_map (split_edge 0) (ring (p_pts s)) = []) by (induction (ring (p_pts s)); cbn; auto). rewrite E. reflexivity.
Qed.

(** *** verdicts depend on the outlines only *)
Lemma outline_region : forall l l', same_outline l l' -> forall p, region l p <-> region l' p.
Proof. intros l l' (B & E) p. unfold region. rewrite B, E. reflexivity. Qed.
Lemma outline_sym : forall l l', same_outline l l' -> same_outline l' l.
Proof. intros l l' (B & E). split; intros p; [symmetry; apply B|symmetry; apply E]. Qed.
Lemma hazard_blocked : forall {D} (f g : fact R D), same_hazard f g -> forall p, blocked f p <-> blocked g p.
Proof.
  intros D f g (E & _ & O) p. unfold blocked. rewrite E. destruct O as (B & P). unfold region. destruct (ent_position (f_ent g)); rewrite B, P; reflexivity.
Qed.
Lemma feasible_alike : forall {D} (fs gs : list (fact R D)) s s' irr, Forall2 same_hazard fs gs -> same_outline (p_pts s) (p_pts s') ->
  feasible s irr fs -> feasible s' irr gs.
Proof.
  intros D fs gs s s' irr H O Fe g Hg Ag Ig p Rp Bp. revert Hg Bp. induction H as [|f g' fs gs Fg H IH]; [intros []|].
  assert (Fe' : feasible s irr fs) by (intros x X; apply Fe; right; exact X). specialize (IH Fe').
  intros [->|Hg] Bp; [|exact (IH Hg Bp)]. destruct Fg as (E & Ac & Q). apply (Fe f (or_introl eq_refl)) with (p := p); try congruence.
  - apply (outline_region _ _ O), Rp.
  - apply (hazard_blocked f g); [split; auto|exact Bp].
Qed.
Lemma Forall2_flip : forall {A B} (P : A -> B -> Prop) l l', Forall2 P l l' -> Forall2 (fun b a => P a b) l' l.
Proof. intros A B P l l' H. induction H; constructor; auto. Qed.
Section Verdict.
  Context {D : Type} {ED : EqD D} {BS : BSearch} (Hb : bsearch_ok BS).
  Lemma verdict_alike : forall bb st1 st2 d1 d2 n1 n2 (ops1 ops2 : list (op R D)) (c1 c2 : cde R D) sn1 sn2,
    valid st1 ops1 -> engine bb st1 d1 n1 ops1 = Ok (c1, sn1) -> framed bb (facts st1 ops1) -> good_facts (facts st1 ops1) -> all_active (facts st1 ops1) ->
    valid st2 ops2 -> engine bb st2 d2 n2 ops2 = Ok (c2, sn2) -> framed bb (facts st2 ops2) -> good_facts (facts st2 ops2) -> all_active (facts st2 ops2) ->
    Forall2 same_hazard (facts st1 ops1) (facts st2 ops2) ->
    forall s1 s2 irr, good_shape s1 -> good_shape s2 -> same_outline (p_pts s1) (p_pts s2) ->
    (box_inside bb s1 /\ box_inside bb s2 \/ exists f0, In f0 (facts st1 ops1) /\ ent_position (f_ent f0) = Exterior /\ ~ In (f_ent f0) irr) ->
    (ask c1 (AskPoly s1 irr) = Ok TFalse <-> ask c2 (AskPoly s2 irr) = Ok TFalse).
  Proof.
    intros bb st1 st2 d1 d2 n1 n2 ops1 ops2 c1 c2 sn1 sn2 V1 E1 F1 G1 A1 V2 E2 F2 G2 A2 H s1 s2 irr S1 S2 O Bx.
    rewrite (accepted_iff_feasible Hb bb st1 d1 n1 ops1 c1 sn1 V1 E1 F1 G1 A1 s1 irr S1).
    rewrite (accepted_iff_feasible Hb bb st2 d2 n2 ops2 c2 sn2 V2 E2 F2 G2 A2 s2 irr S2).
    - split; apply feasible_alike; auto; [|apply outline_sym, O]. apply Forall2_flip in H.
      clear -H. induction H as [|g f gs fs (E & Ac & Q) H IH]; constructor; [split; [auto|split; [auto|apply outline_sym, Q]]|exact IH].
    - destruct Bx as [(_ & B)|(f0 & I & P & N)]; [left; exact B|right].
      clear -H I P N. induction H as [|f g fs gs (E & Ac & Q) H IH]; [destruct I|]. destruct I as [->|I].
      + exists g. rewrite <- E. cbn; auto.
      + destruct (IH I) as (x & X & Y). exists x. cbn; auto.
    - destruct Bx as [(B & _)|Bx]; [left; exact B|right; exact Bx].
  Qed.
End Verdict.

(** *** [modify_instance] *)
Lemma Forall2_rmapM : forall {A B} (f : A -> res B) l l', rmapM f l = Ok l' -> Forall2 (fun x y => f x = Ok y) l l'.
Proof.
  intros A B f l. induction l as [|x l IH]; intros l' E; cbn [rmapM] in E; [injection E as <-; constructor|].
  destruct (f x) as [y|] eqn:Ex; [|discriminate]. cbn [rbind] in E. destruct (rmapM f l) as [r|]; [|discriminate]. cbn [rbind] in E.
  injection E as <-. constructor; auto.
Qed.
Lemma modify_items_ok : forall eqa pr m items items', (forall x, eqa x x = true) -> (1 <= m)%nat -> Forall splittable items ->
  modify_items eqa pr m items = Ok items' -> Forall2 (item_split m) items items' /\ Forall splittable items'.
Proof.
  intros eqa pr m items items' Eq H Sp E. apply Forall2_rmapM in E. induction E as [|[it q] y l l' E E' IH]; [split; constructor|].
  inversion Sp as [|? ? (Md & Sm) Sp']; subst. destruct (IH Sp') as (I1 & I2). cbn [fst] in Md, Sm.
  pose proof (multiply_ok eqa (it_shape it) m Eq Md Sm H) as K.
  destruct (multiply_edge_count eqa (it_shape it) m) as [s|] eqn:Es; [|discriminate]. cbn [rbind] in E.
  destruct (poly_new (p_pts (it_shape it))) as [s0|]; [|discriminate].
  destruct K as (s' & Es' & Ev & O & Bx & Ar & Po & _ & Sm' & Md'). injection Es' as <-.
  unfold item_new, generate_surrogate in E. destruct (surrogate_new _ _ s) as [u|]; [|discriminate]. cbn [rbind fst] in E. injection E as <-.
  split; constructor; auto.
  - constructor; cbn [fst snd it_id it_rot it_quality it_shape p_pts p_area p_bbox]; auto.
  - split; cbn [fst it_shape p_pts]; [|exact Sm']. destruct Md' as [N0 N1 N2 N3 N4]. constructor; auto. destruct N0. constructor; auto.
Qed.
Lemma area_alike : forall m items items', Forall2 (item_split m) items items' -> items_area items' = items_area items.
Proof.
  intros m items items' H. unfold items_area. f_equal. induction H as [|x y l l' S H IH]; [reflexivity|]. cbn [map]. rewrite IH.
  rewrite (is_area _ _ _ S), (is_qty _ _ _ S). reflexivity.
Qed.
Lemma ids_alike : forall m items items', Forall2 (item_split m) items items' -> map (fun p => it_id (fst p)) items' = map (fun p => it_id (fst p)) items.
Proof. intros m items items' H. induction H as [|x y l l' S H IH]; [reflexivity|]. cbn [map]. rewrite IH, (is_id _ _ _ S). reflexivity. Qed.
(** what [modify_instance] makes of an instance *)
Lemma modify_sp : forall {D} eqa pr m items hgt inst i', (forall x, eqa x x = true) -> (1 <= m)%nat -> Forall splittable items ->
  spinst_new items hgt = Ok inst -> modify_instance (D := D) eqa pr m (ISP inst) = Ok i' ->
  exists items', i' = ISP (SPI items' (si_area inst) hgt) /\ Forall2 (item_split m) items items' /\ Forall splittable items'.
Proof.
  intros D eqa pr m items hgt inst i' Eq H Sp E0 E. unfold spinst_new in E0.
  destruct (ids_correct _) eqn:Q; [|discriminate]. cbn [rassert rbind] in E0. injection E0 as <-.
  cbn [modify_instance si_items si_height] in E. destruct (modify_items eqa pr m items) as [items'|] eqn:Ei; [|discriminate]. cbn [rbind] in E.
  destruct (modify_items_ok _ _ _ _ _ Eq H Sp Ei) as (I1 & I2). unfold spinst_new in E. rewrite (ids_alike _ _ _ I1), Q in E. cbn [rassert rbind] in E. injection E as <-.
  exists items'. rewrite (area_alike _ _ _ I1). auto.
Qed.
Lemma modify_bp : forall {D} eqa pr m items bins inst i', (forall x, eqa x x = true) -> (1 <= m)%nat -> Forall splittable items ->
  bpinst_new items bins = Ok inst -> modify_instance (D := D) eqa pr m (IBP inst) = Ok i' ->
  exists items', i' = IBP (BPI items' (bi_area inst) bins) /\ Forall2 (item_split m) items items' /\ Forall splittable items'.
Proof.
  intros D eqa pr m items bins inst i' Eq H Sp E0 E. unfold bpinst_new in E0.
  destruct (ids_correct (map (fun p => it_id (fst p)) items) && _) eqn:Q; [|discriminate]. cbn [rassert rbind] in E0. injection E0 as <-.
  cbn [modify_instance bi_items bi_bins] in E. destruct (modify_items eqa pr m items) as [items'|] eqn:Ei; [|discriminate]. cbn [rbind] in E.
  destruct (modify_items_ok _ _ _ _ _ Eq H Sp Ei) as (I1 & I2). unfold bpinst_new in E. rewrite (ids_alike _ _ _ I1), Q in E. cbn [rassert rbind] in E. injection E as <-.
  exists items'. rewrite (area_alike _ _ _ I1). auto.
Qed.
(** the surrogates of a split item have the same poles *)
Lemma surrogate_poles_alike : forall cfg sc s s' u u', sound_poly s -> sound_poly s' -> p_pts s <> [] -> p_pts s' <> [] -> p_bbox s = p_bbox s' ->
  same_outline (p_pts s) (p_pts s') -> p_area s = p_area s' -> p_poi s = p_poi s' ->
  surrogate_new cfg sc s = Ok u -> surrogate_new cfg sc s' = Ok u' -> s_poles u = s_poles u' /\ s_bcircle u = s_bcircle u' /\ s_nff u = s_nff u'.
Proof.
  intros cfg sc s s' u u' So So' Ne Ne' Bb Al Ar Po E E'. unfold surrogate_new in E, E'.
  destruct (convex_hull_indices (p_pts s)) as [h|]; [|discriminate]. cbn [rbind] in E.
  destruct (convex_hull_indices (p_pts s')) as [h'|]; [|discriminate]. cbn [rbind] in E'.
  destruct (rmapM _ h) as [hp|]; [|discriminate]. cbn [rbind] in E.
  destruct (rmapM _ h') as [hp'|]; [|discriminate]. cbn [rbind] in E'.
  destruct (poly_new hp) as [q|]; [|discriminate]. cbn [rbind] in E.
  destruct (poly_new hp') as [q'|]; [|discriminate]. cbn [rbind] in E'.
  rewrite (poles_alike s s' So So' Ne Ne' Bb Al Ar Po) in E. rewrite Po in E.
  destruct (additional_poles (pc_pi cfg) s' (sc_max_poles sc - 1) (sc_goal sc)) as [add|]; [|discriminate]. cbn [rbind] in E, E'.
  destruct (bounding_circle (p_poi s' :: add)) as [bc|]; [|discriminate]. cbn [rbind] in E, E'.
  destruct (generate_piers cfg s _ _) as [ps|]; [|discriminate]. cbn [rbind] in E.
  destruct (generate_piers cfg s' _ _) as [ps'|]; [|discriminate]. cbn [rbind] in E'.
  injection E as <-. injection E' as <-. auto.
Qed.
(** the surrogate of the benchmark is that of the library, for another configuration *)
Definition bench_sc (np npi : nat) : surr_cfg R := SC (fofN 9 / fofN 10) np np npi.
Lemma custom_is_surrogate : forall cfg s np npi u,
  create_custom_surrogate cfg s np npi = Ok u <-> surrogate_new cfg (bench_sc np npi) s = Ok u.
Proof.
  intros cfg s np npi u. unfold create_custom_surrogate, surrogate_new, bench_sc. cbn [sc_goal sc_max_poles sc_nff_poles sc_nff_piers].
  destruct (convex_hull_indices (p_pts s)) as [h|]; [|reflexivity]. cbn [rbind].
  destruct (rmapM _ h) as [hp|]; cbn [rbind].
  - destruct (poly_new hp) as [q|]; cbn [rbind]; [reflexivity|].
    destruct (additional_poles _ s _ _); cbn [rbind]; [|reflexivity]. destruct (bounding_circle _); cbn [rbind]; [|reflexivity].
    destruct (generate_piers _ s _ _); cbn [rbind]; reflexivity.
  - destruct (additional_poles _ s _ _); cbn [rbind]; [|reflexivity]. destruct (bounding_circle _); cbn [rbind]; [|reflexivity].
    destruct (generate_piers _ s _ _); cbn [rbind]; reflexivity.
Qed.
Lemma custom_inside : forall cfg s np npi u, made s -> 0 <= pc_trim cfg <= 1 -> pier_safe cfg s npi ->
  create_custom_surrogate cfg s np npi = Ok u -> surrogate_inside s u.
Proof.
  intros cfg s np npi u Md Tr Sf E. apply custom_is_surrogate in E.
  destruct (surrogate_general cfg (bench_sc np npi) s (Poly (p_pts s) (p_bbox s) (p_area s) (p_diam s) (p_poi s) (Some u)) Md Tr Sf) as (u' & Eu & In').
  - unfold generate_surrogate. rewrite E. reflexivity.
  - cbn [p_surr] in Eu. injection Eu as <-. exact In'.
Qed.
(** *** one sample after the other *)
Definition buffer_of (s buf : poly R) : Prop :=
  length (p_pts buf) = length (p_pts s) /\ p_area buf = p_area s /\ p_diam buf = p_diam s /\ crad (p_poi buf) = crad (p_poi s) /\ p_surr buf = None.
Lemma zip_from_map : forall {A} (f : A -> A) (b r : list A), length b = length r -> zip_from (fun _ y => f y) b r = map f r.
Proof. intros A f. induction b as [|x b IH]; intros [|y r] L; try discriminate; [reflexivity|]. cbn. f_equal. apply IH. injection L as L. exact L. Qed.
Lemma buffer_moved : forall t s buf, buffer_of s buf -> tr_poly_from t buf s = Ok (stripped (tr_poly t s)).
Proof.
  intros t s buf (L & A & D & P & S). unfold tr_poly_from. rewrite S. cbn [rbind]. rewrite (zip_from_map (tr_point t) _ _ L), A, D.
  unfold tr_circle_from. rewrite P. reflexivity.
Qed.
Lemma buffer_stripped : forall s, buffer_of s (stripped s). Proof. repeat split. Qed.
Lemma buffer_tr : forall t s, buffer_of s (stripped (tr_poly t s)).
Proof. intros t s. repeat split. cbn [stripped tr_poly p_pts]. apply map_length. Qed.

Section FastFail.
  Context {D : Type} {ED : EqD D} {BS : BSearch}.
  Hypothesis BSok : bsearch_ok BS.
  Variables (bb : rrect) (st : list (hazard R D)) (lvl n : nat) (ops : list (op R D)) (c : cde R D) (sn : list (snapshot R D)).
  Hypothesis V : valid st ops.
  Hypothesis E : engine bb st lvl n ops = Ok (c, sn).
  Hypothesis Fr : framed bb (facts st ops).
  Hypothesis Gf : good_facts (facts st ops).
  Hypothesis Ac : all_active (facts st ops).
  Lemma fast_fail_one : forall s u t buf, good_shape s -> surrogate_inside s u -> rigid t -> buffer_of s buf ->
    exists r buf', fast_fail c u s t buf = Ok (r, buf') /\ buffer_of s buf' /\ poly_collides c (tr_poly t s) [] = Ok r.
  Proof.
    intros s u t buf Gs In' Rg Bf. pose proof (buffer_moved t s buf Bf) as Eb.
    set (s' := Poly (p_pts s) (p_bbox s) (p_area s) (p_diam s) (p_poi s) (Some u)).
    assert (Gs' : good_shape s') by (destruct Gs as [G1 G2 G3 G4 G5]; split; assumption).
    assert (Eb' : tr_poly_from t buf s' = Ok (stripped (tr_poly t s))) by (rewrite <- Eb; unfold tr_poly_from; rewrite (proj2 (proj2 (proj2 (proj2 Bf)))); reflexivity).
    pose proof (surrogate_never_changes BSok bb st lvl n ops c sn V E Fr Gf Ac s' t buf _ u [] Gs' Rg eq_refl In' (proj1 Bf) Eb') as H.
    destruct (good_tr_poly_from t buf s' _ Rg Gs' (proj1 Bf) Eb') as (Gb & _).
    pose proof (asked BSok bb st lvl n ops c sn V E (AskPoly (stripped (tr_poly t s)) []) (good_wf _ Gb)) as Ha.
    assert (Hr : exists r, poly_collides c (tr_poly t s) [] = Ok r).
    { cbn [ask] in Ha. change (poly_collides c (stripped (tr_poly t s)) []) with (poly_collides c (tr_poly t s) []) in Ha.
      destruct (poly_collides c (tr_poly t s) []) as [r|]; [eexists; reflexivity|discriminate]. }
    clear Ha. destruct Hr as (r & Ep). cbn [ask] in H.
    change (poly_collides c (stripped (tr_poly t s)) []) with (poly_collides c (tr_poly t s) []) in H. rewrite Ep in H. cbn [rbind] in H.
    unfold surrogate_or_poly_collides in H. cbn [p_surr s' expect rbind] in H. unfold fast_fail.
    destruct (surrogate_collides c u t []) as [[]|]; [| |discriminate]; cbn [rbind] in H |- *.
    - exists true, buf. split; [reflexivity|]. split; [exact Bf|]. destruct r; [exact Ep|discriminate].
    - rewrite Eb. cbn [rbind]. change (poly_collides c (stripped (tr_poly t s)) []) with (poly_collides c (tr_poly t s) []). rewrite Ep. cbn [rbind].
      exists r, (stripped (tr_poly t s)). split; [reflexivity|]. split; [apply buffer_tr|first [exact Ep|reflexivity]].
  Qed.
  Lemma fast_fails_spec : forall s u, good_shape s -> surrogate_inside s u -> forall ts buf, Forall rigid ts -> buffer_of s buf ->
    fast_fails c u s ts buf = rmapM (fun t => poly_collides c (tr_poly t s) []) ts.
  Proof.
    intros s u Gs In'. induction ts as [|t ts IH]; intros buf Rg Bf; [reflexivity|]. inversion_clear Rg as [|? ? R1 R2].
    destruct (fast_fail_one s u t buf Gs In' R1 Bf) as (r & buf' & E1 & Bf' & E2). cbn [fast_fails rmapM]. rewrite E1, E2. cbn [rbind]. rewrite (IH _ R2 Bf'). reflexivity.
  Qed.
  Lemma fast_fail_exact : forall cfg s np npi u ts, made s -> no_spikes (p_pts s) -> 0 <= pc_trim cfg <= 1 -> pier_safe cfg s npi ->
    create_custom_surrogate cfg s np npi = Ok u -> Forall rigid ts ->
    fast_fails c u s ts (stripped s) = rmapM (fun t => poly_collides c (tr_poly t s) []) ts.
  Proof.
    intros cfg s np npi u ts Md Ns Tr Sf Eu Rg. apply fast_fails_spec; [|exact (custom_inside _ _ _ _ _ Md Tr Sf Eu)|exact Rg|apply buffer_stripped].
    apply made_good; assumption.
  Qed.
End FastFail.
