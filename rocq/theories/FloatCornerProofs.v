(** Single precision: a pentagon that overlaps a quadrangle in a rectangle of 700 by 280
    units, accepted by the engine.  The borders cross near the corner of a node of the
    quadtree, where rounding makes the nodes of the two borders differ. *)
From Coq Require Import ZArith Lia Bool List.
From Flocq Require Import Core IEEE754.BinarySingleNaN.
From Verif Require Import Base BaseProofs Num FloatModel FloatArithProofs GeoModel HazardModel QTModel TransfModel HpgModel CdeModel CdeSpec CdeThmProofs Instances
  GeoSpec PlaceSpec SimpleSpec ParityProofs GeoPrimProofs GeoThmProofs HullProofs SimpleExampleProofs FloatSpec FloatGeoProofs FloatRefuteProofs SimpleThmProofs.
From Coq Require Import Reals Lra.
From Verif Require Import GeoModel HazardModel QTModel TransfModel CdeModel CdeSpec GeoSpec PlaceSpec FloatSpec.
Import ListNotations.

(** the number [n * 2^-13], the bin's sides [n * 2^11] *)
Definition k32 (n : Z) : f32 := binary_normalize 24 128 prec32 emax32 mode_NE n (-13) false.
Definition b32 (n : Z) : f32 := binary_normalize 24 128 prec32 emax32 mode_NE n 11 false.
Definition kp (x y : Z) : point f32 := Pt (k32 x) (k32 y).
(** the quadrangle lies below its edge to [(-1,-1) * 2^-14] *)
Definition k_haz : poly f32 := Poly [Pt (q32 14356199) (k32 13240563); qp (-1) (-1); kp (-6553600) (-15564800); kp 16384000 (-16384000)]
  (Rc (k32 (-6553600)) (k32 (-16384000)) (k32 16384000) (k32 13240563)) (q32 0) (q32 0) (Ci (kp 4096000 (-8192000)) (q32 1)) None.
(** two triangles joined by a waist that is [2^-13] wide, around the origin *)
Definition k_item : poly f32 := Poly [Pt (k32 11756105) (q32 (-15215246)); qp (-1) 1; Pt (k32 (-11096411)) (q32 13775374); qp 1 (-1); kp 819200 (-14745600)]
  (Rc (k32 (-11096411)) (k32 (-14745600)) (k32 11756105) (q32 13775374)) (q32 0) (q32 0) (Ci (kp 4096000 (-8192000)) (q32 1)) None.
(** the origin is the centre of the first node of level 1 *)
Definition k_bb (d : nat) : rect f32 := Rc (b32 (-1)) (b32 (-1)) (b32 (2 ^ Z.of_nat d - 1)) (b32 (2 ^ Z.of_nat d - 1)).
Definition k_h : hazard f32 nat := Hz (PlacedItem 1 0%nat) (Arc 1 k_haz) true.
Definition k_ops : list (op f32 nat) := [OReg k_h].

Local Open Scope R_scope.
Local Notation v := (@B2R 24 128).
Lemma k_ex n : (Z.abs n <= 2 ^ 24)%Z -> is_finite (k32 n) = true /\ v (k32 n) = IZR n / 8192.
Proof.
  intros H. destruct (ex_norm prec32 emax32 n (-13) (2 ^ 24) H (Z.le_refl _)) as (F & E & _); [lia|lia|].
  split; [exact F|]. unfold k32. rewrite E. replace (bpow radix2 (-13)) with (/ 8192) by (cbn; reflexivity). reflexivity.
Qed.
Lemma k_v n : (Z.abs n <= 2 ^ 24)%Z -> v (k32 n) = IZR n / 8192.
Proof. intros H. apply k_ex, H. Qed.
Lemma b_v n : (Z.abs n <= 2 ^ 24)%Z -> v (b32 n) = IZR n * 2048.
Proof.
  intros H. destruct (ex_norm prec32 emax32 n 11 (2 ^ 24) H (Z.le_refl _)) as (F & E & _); [lia|lia|].
  unfold b32. rewrite E. replace (bpow radix2 11) with 2048 by (cbn; reflexivity). reflexivity.
Qed.

Definition rk_haz : poly R := Poly [Pt (14356199 / 16384) (13240563 / 8192); Pt (-1 / 16384) (-1 / 16384); Pt (-6553600 / 8192) (-15564800 / 8192); Pt (16384000 / 8192) (-16384000 / 8192)]
  (Rc (-6553600 / 8192) (-16384000 / 8192) (16384000 / 8192) (13240563 / 8192)) (0 / 16384) (0 / 16384) (Ci (Pt (4096000 / 8192) (-8192000 / 8192)) (1 / 16384)) None.
Definition rk_item : poly R := Poly [Pt (11756105 / 8192) (-15215246 / 16384); Pt (-1 / 16384) (1 / 16384); Pt (-11096411 / 8192) (13775374 / 16384); Pt (1 / 16384) (-1 / 16384); Pt (819200 / 8192) (-14745600 / 8192)]
  (Rc (-11096411 / 8192) (-14745600 / 8192) (11756105 / 8192) (13775374 / 16384)) (0 / 16384) (0 / 16384) (Ci (Pt (4096000 / 8192) (-8192000 / 8192)) (1 / 16384)) None.
Lemma rk_haz_eq : im_poly v k_haz = rk_haz.
Proof. unfold im_poly, k_haz, kp, qp, im_rect, im_circle, im_point. cbn [map p_pts p_bbox p_area p_diam p_poi p_surr ccen crad x_min y_min x_max y_max px py option_map]. rewrite !q_v, !k_v by small_z. reflexivity. Qed.
Lemma rk_item_eq : im_poly v k_item = rk_item.
Proof. unfold im_poly, k_item, kp, qp, im_rect, im_circle, im_point. cbn [map p_pts p_bbox p_area p_diam p_poi p_surr ccen crad x_min y_min x_max y_max px py option_map]. rewrite !q_v, !k_v by small_z. reflexivity. Qed.

(** *** points common to both *)
Definition common (p : rpoint) : Prop := 150 <= px p <= 850 /\ -1230 <= py p <= -950.
Ltac away := intros (g & Hg & (s & Hs & E)); pose proof (f_equal px E) as X; pose proof (f_equal py E) as Y; unfold at_t in X, Y; clear E;
  ring_cases Hg; cbn [es ee px py] in X, Y; lra.
Ltac eo := unfold even_odd, parity, crosses, straddles, cross_x; cbn [ring path_edges fold_right px py es ee]; rcmp; cbn [xorb andb];
  repeat (match goal with |- context [Rltb ?x (?a + ?y * (?k / ?d))] => first [rewrite (cx_pos x a y k d) by lra|rewrite (cx_neg x a y k d) by lra] end); rcmp; reflexivity.
Lemma haz_has p : common p -> interior (p_pts rk_haz) p.
Proof.
  destruct p as [u w]. unfold common. cbn [px py]. intros [Hu Hw]. cbn [rk_haz p_pts]. split; [away|eo].
Qed.
Lemma item_has p : common p -> interior (p_pts rk_item) p.
Proof.
  destruct p as [u w]. unfold common. cbn [px py]. intros [Hu Hw]. cbn [rk_item p_pts]. split; [away|eo].
Qed.
Lemma haz_simple : simple (p_pts rk_haz).
Proof. cbn [rk_haz p_pts]. simple_poly. Qed.
Lemma item_simple : simple (p_pts rk_item).
Proof. cbn [rk_item p_pts]. simple_poly. Qed.
Lemma k_haz_good : good_shape rk_haz.
Proof.
  split; [exact (simple_nondegenerate _ haz_simple)|exact (simple_spikes _ haz_simple)|split; cbn [rk_haz p_bbox x_min y_min x_max y_max]; lra| |].
  - cbn [rk_haz p_bbox p_pts]. split; [|split; [|split; [|split]]]; cbn [x_min y_min x_max y_max].
    + intros p [<-|[<-|[<-|[<-|[]]]]]; split; cbn [x_min y_min x_max y_max px py]; lra.
    + eexists. split; [right; right; left; reflexivity|reflexivity].
    + eexists. split; [right; right; right; left; reflexivity|reflexivity].
    + eexists. split; [right; right; right; left; reflexivity|reflexivity].
    + eexists. split; [left; reflexivity|reflexivity].
  - apply haz_has. unfold common. cbn [rk_haz p_poi ccen px py]. lra.
Qed.
Lemma k_item_good : good_shape rk_item.
Proof.
  split; [exact (simple_nondegenerate _ item_simple)|exact (simple_spikes _ item_simple)|split; cbn [rk_item p_bbox x_min y_min x_max y_max]; lra| |].
  - cbn [rk_item p_bbox p_pts]. split; [|split; [|split; [|split]]]; cbn [x_min y_min x_max y_max].
    + intros p [<-|[<-|[<-|[<-|[<-|[]]]]]]; split; cbn [x_min y_min x_max y_max px py]; lra.
    + eexists. split; [right; right; left; reflexivity|reflexivity].
    + eexists. split; [left; reflexivity|reflexivity].
    + eexists. split; [right; right; right; right; left; reflexivity|reflexivity].
    + eexists. split; [right; right; left; reflexivity|reflexivity].
  - apply item_has. unfold common. cbn [rk_item p_poi ccen px py]. lra.
Qed.

Section Run.
  Variables (umax : nat) (alm : f32 -> f32 -> bool).
  #[local] Instance NK : Num f32 := FloatNum 24 128 prec32 emax32 umax alm.
  #[local] Existing Instance NatEqD.
  #[local] Existing Instance LinSearch.
  (** numbers the tolerant comparison identifies differ by at most 1 *)
  Hypothesis HT : forall x y, is_finite x = true -> is_finite y = true -> alm x y = true -> Rabs (v x - v y) <= 1.
  Lemma k_valid : valid (F := f32) [] k_ops.
  Proof.
    split; [split; constructor|]. exists (fun _ => (k_haz, true)). split; [|exact Logic.I]. split; [|split; [reflexivity|split; intros []]].
    intros i Hi. destruct i as [|[|[|[|i]]]]; [..|exfalso; cbn in Hi; lia]; eexists; reflexivity.
  Qed.
  Lemma k_edges d : (1 <= d <= 5)%nat -> match engine (k_bb d) [] d 0 k_ops with Ok (c, _) => by_edge_intersection c k_item [] | Panic => Panic end = Ok false.
  Proof. intros H. destruct d as [|[|[|[|[|[|d]]]]]]; [exfalso; lia|..|exfalso; lia]; lazy; reflexivity. Qed.
  Lemma k_rel d : (1 <= d <= 5)%nat -> match engine (k_bb d) [] d 0 k_ops with Ok (c, _) => relation_to (cd_bbox c) (p_bbox k_item) | Panic => Disjoint end = Surrounding.
  Proof. intros H. destruct d as [|[|[|[|[|[|d]]]]]]; [exfalso; lia|..|exfalso; lia]; lazy; reflexivity. Qed.
  Lemma k_all d : (1 <= d <= 5)%nat -> match engine (k_bb d) [] d 0 k_ops with Ok (c, _) => all_hazards c | Panic => [] end = [k_h].
  Proof. intros H. destruct d as [|[|[|[|[|[|d]]]]]]; [exfalso; lia|..|exfalso; lia]; reflexivity. Qed.
  Lemma k_arel : almost_relation_to (p_bbox k_haz) (p_bbox k_item) = Disjoint \/ almost_relation_to (p_bbox k_haz) (p_bbox k_item) = Intersecting.
  Proof.
    unfold almost_relation_to. destruct (rr_almost_collides _ _); [right|left; reflexivity].
    cbn [p_bbox k_haz k_item x_min y_min x_max y_max].
    assert (E1 : fpa_le (k32 (-6553600)) (k32 (-11096411)) = false).
    { unfold fpa_le. replace (falmost (k32 (-6553600)) (k32 (-11096411))) with false; [lazy; reflexivity|].
      symmetry. change (alm (k32 (-6553600)) (k32 (-11096411)) = false). destruct (alm _ _) eqn:E; [|reflexivity].
      apply HT in E; [|apply k_ex; small_z|apply k_ex; small_z]. rewrite !k_v in E by small_z. rewrite Rabs_pos_eq in E; lra. }
    assert (E2 : fpa_le (k32 16384000) (k32 11756105) = false).
    { unfold fpa_le. replace (falmost (k32 16384000) (k32 11756105)) with false; [lazy; reflexivity|].
      symmetry. change (alm (k32 16384000) (k32 11756105) = false). destruct (alm _ _) eqn:E; [|reflexivity].
      apply HT in E; [|apply k_ex; small_z|apply k_ex; small_z]. rewrite !k_v in E by small_z. rewrite Rabs_pos_eq in E; lra. }
    rewrite E1, E2. cbn [andb]. rewrite !andb_false_r. reflexivity.
  Qed.
  Lemma k_accepted d : (1 <= d <= 5)%nat -> exists c sn, engine (k_bb d) [] d 0 k_ops = Ok (c, sn) /\ ask c (AskPoly k_item []) = Ok TFalse.
  Proof.
    intros Hd. pose proof (k_edges d Hd) as E1. pose proof (k_rel d Hd) as E2. pose proof (k_all d Hd) as E3.
    destruct (engine (k_bb d) [] d 0 k_ops) as [[c sn]|]; [|discriminate E1]. exists c, sn. split; [reflexivity|].
    cbn [ask]. unfold poly_collides. rewrite E2, E1. cbn [rbind]. unfold by_containment. rewrite E3.
    cbn [filter k_h h_active h_ent memb negb andb existsb rany]. unfold are_contained. cbn [h_shape a_obj k_h].
    destruct k_arel as [-> | ->]; reflexivity.
  Qed.
  (** without subdivision the overlap is reported *)
  Lemma k_flat_ask d : (1 <= d <= 5)%nat -> match engine (k_bb d) [] 0 0 k_ops with Ok (c, _) => ask c (AskPoly k_item []) | Panic => Panic end = Ok TTrue.
  Proof. intros H. destruct d as [|[|[|[|[|[|d]]]]]]; [exfalso; lia|..|exfalso; lia]; lazy; reflexivity. Qed.
  Lemma k_flat d : (1 <= d <= 5)%nat -> exists c sn, engine (k_bb d) [] 0 0 k_ops = Ok (c, sn) /\ ask c (AskPoly k_item []) = Ok TTrue.
  Proof.
    intros Hd. pose proof (k_flat_ask d Hd) as E. destruct (engine (k_bb d) [] 0 0 k_ops) as [[c sn]|]; [|discriminate E].
    exists c, sn. split; [reflexivity|exact E].
  Qed.
End Run.

(** the statement *)
Lemma corner_accepted : forall (umax : nat) (alm : f32 -> f32 -> bool),
  (forall x y, is_finite x = true -> is_finite y = true -> alm x y = true -> Rabs (v x - v y) <= 1) ->
  let N := FloatNum 24 128 prec32 emax32 umax alm in
  forall d, (1 <= d <= 5)%nat ->
  exists (bb : rect f32) (ops : list (op f32 nat)) (s : poly f32) c sn f,
    valid (N := N) (ED := NatEqD) [] ops /\ engine (N := N) (ED := NatEqD) (BS := LinSearch) bb [] d 0 ops = Ok (c, sn) /\
    framed (im_rect v bb) (map (im_fact v) (facts (ED := NatEqD) [] ops)) /\
    good_facts (map (im_fact v) (facts (ED := NatEqD) [] ops)) /\ all_active (map (im_fact v) (facts (ED := NatEqD) [] ops)) /\
    good_shape (im_poly v s) /\ box_inside (im_rect v bb) (im_poly v s) /\
    ask (N := N) (ED := NatEqD) c (AskPoly s []) = Ok TFalse /\
    In f (map (im_fact v) (facts (ED := NatEqD) [] ops)) /\ simple (p_pts (f_poly f)) /\ simple (p_pts (im_poly v s)) /\
    (forall p, 150 <= px p <= 850 -> -1230 <= py p <= -950 -> interior (p_pts (im_poly v s)) p /\ strictly_blocked f p) /\
    exists c0 sn0, engine (N := N) (ED := NatEqD) (BS := LinSearch) bb [] 0 0 ops = Ok (c0, sn0) /\
      ask (N := N) (ED := NatEqD) c0 (AskPoly s []) = Ok TTrue.
Proof.
  intros umax alm HT N d Hd. destruct (k_accepted umax alm HT d Hd) as (c & sn & E & A). destruct (k_flat umax alm d Hd) as (c0 & sn0 & E0 & A0).
  exists (k_bb d), k_ops, k_item, c, sn, (PlacedItem 1 0%nat, rk_haz, true).
  assert (Q : map (im_fact v) (facts (ED := NatEqD) [] k_ops) = [(PlacedItem 1 0%nat, rk_haz, true)]).
  { change (map (im_fact v) (facts (ED := NatEqD) [] k_ops)) with [(PlacedItem 1 0%nat, im_poly v k_haz, true)]. rewrite rk_haz_eq. reflexivity. }
  assert (Hb : (2 <= 2 ^ Z.of_nat d <= 32)%Z).
  { destruct d as [|[|[|[|[|[|d]]]]]]; [exfalso; lia|cbn; lia|cbn; lia|cbn; lia|cbn; lia|cbn; lia|exfalso; lia]. }
  assert (Hb2 : 1 <= IZR (2 ^ Z.of_nat d - 1)) by (apply IZR_le; lia).
  assert (B : im_rect v (k_bb d) = Rc (-1 * 2048) (-1 * 2048) (IZR (2 ^ Z.of_nat d - 1) * 2048) (IZR (2 ^ Z.of_nat d - 1) * 2048)).
  { unfold im_rect, k_bb. cbn [x_min y_min x_max y_max]. rewrite !b_v by lia. reflexivity. }
  split; [exact (k_valid umax alm)|]. split; [exact E|]. rewrite Q, B, rk_item_eq.
  split; [split; [split; cbn [x_min y_min x_max y_max]; lra|intros f [<-|[]] H; discriminate H]|].
  split; [intros f [<-|[]]; exact k_haz_good|]. split; [intros f [<-|[]]; reflexivity|]. split; [exact k_item_good|].
  split; [|split; [exact A|split; [left; reflexivity|split; [exact haz_simple|split; [exact item_simple|split; [|exists c0, sn0; split; [exact E0|exact A0]]]]]]].
  - intros p. cbn [rk_item p_bbox]. unfold in_rect. cbn [x_min y_min x_max y_max]. lra.
  - intros p Hx Hy. assert (C : common p) by (split; assumption). split; [exact (item_has p C)|exact (haz_has p C)].
Qed.
