(** Single precision: two triangles that overlap, accepted by the engine. *)
From Coq Require Import ZArith Lia Bool List.
From Flocq Require Import Core IEEE754.BinarySingleNaN.
From Verif Require Import Base BaseProofs Num FloatModel FloatArithProofs GeoModel HazardModel QTModel TransfModel HpgModel CdeModel CdeSpec CdeThmProofs Instances
  GeoSpec PlaceSpec ParityProofs GeoPrimProofs GeoThmProofs HullProofs FloatSpec FloatGeoProofs.
From Coq Require Import Reals Lra.
From Verif Require Import GeoModel HazardModel QTModel TransfModel CdeModel CdeSpec GeoSpec PlaceSpec FloatSpec.
Import ListNotations.

(** the number [n * 2^-14] *)
Definition q32 (n : Z) : f32 := binary_normalize 24 128 prec32 emax32 mode_NE n (-14) false.
Definition qp (x y : Z) : point f32 := Pt (q32 x) (q32 y).
Definition q_haz : poly f32 := Poly [qp (-9382978) (-3545217); qp 16661669 2752979; qp 1469190 16777215]
  (Rc (q32 (-9382978)) (q32 (-3545217)) (q32 16661669) (q32 16777215)) (q32 0) (q32 0) (Ci (qp 1469190 4000000) (q32 1)) None.
Definition q_item : poly f32 := Poly [qp (-10161831) (-6881140); qp 121819 (-5872694); qp (-5317292) (-2562040)]
  (Rc (q32 (-10161831)) (q32 (-6881140)) (q32 121819) (q32 (-2562040))) (q32 0) (q32 0) (Ci (qp (-5317292) (-5000000)) (q32 1)) None.
Definition q_bb : rect f32 := Rc (q32 (-16777216)) (q32 (-16777216)) (q32 16777216) (q32 16777216).
Definition q_h : hazard f32 nat := Hz (PlacedItem 1 0%nat) (Arc 1 q_haz) true.
Definition q_ops : list (op f32 nat) := [OReg q_h].

Local Open Scope R_scope.
Local Notation v := (@B2R 24 128).
Lemma q_ex n : (Z.abs n <= 2 ^ 24)%Z -> is_finite (q32 n) = true /\ v (q32 n) = IZR n / 16384.
Proof.
  intros H. destruct (ex_norm prec32 emax32 n (-14) (2 ^ 24) H (Z.le_refl _)) as (F & E & _); [lia|lia|].
  split; [exact F|]. unfold q32. rewrite E. replace (bpow radix2 (-14)) with (/ 16384) by (cbn; reflexivity). reflexivity.
Qed.
Lemma q_v n : (Z.abs n <= 2 ^ 24)%Z -> v (q32 n) = IZR n / 16384.
Proof. intros H. apply q_ex, H. Qed.
Definition rp (x y : Z) : rpoint := Pt (IZR x / 16384) (IZR y / 16384).
Lemma qp_v x y : (Z.abs x <= 2 ^ 24)%Z -> (Z.abs y <= 2 ^ 24)%Z -> im_point v (qp x y) = rp x y.
Proof. intros. unfold im_point, qp, rp. cbn [px py]. rewrite !q_v by assumption. reflexivity. Qed.

(** *** triangles in the plane *)
Lemma cx_pos x a y k d : 0 < d -> Rltb x (a + y * (k / d)) = Rltb (x * d) (a * d + y * k).
Proof.
  intros H. assert (E : (a + y * (k / d)) * d = a * d + y * k) by (field; lra).
  destruct (Rltb (x * d) _) eqn:Q; [apply Rltb_spec in Q; apply Rltb_spec|apply Rltb_nspec in Q; apply Rltb_nspec]; rewrite <- E in Q; nra.
Qed.
Lemma cx_neg x a y k d : d < 0 -> Rltb x (a + y * (k / d)) = Rltb (a * d + y * k) (x * d).
Proof.
  intros H. assert (E : (a + y * (k / d)) * d = a * d + y * k) by (field; lra).
  destruct (Rltb _ (x * d)) eqn:Q; [apply Rltb_spec in Q; apply Rltb_spec|apply Rltb_nspec in Q; apply Rltb_nspec]; rewrite <- E in Q; nra.
Qed.
Definition cr (a b p : rpoint) : R := (px b - px a) * (py p - py a) - (py b - py a) * (px p - px a).
Lemma cr_off a b p : cr a b p <> 0 -> ~ on_seg (Ed a b) p.
Proof. intros H (t & _ & ->). apply H. unfold cr, at_t. cbn [px py es ee]. ring. Qed.
Lemma tri_interior a b c p : 0 < cr a b p -> 0 < cr b c p -> 0 < cr c a p -> even_odd [a; b; c] p = true -> interior [a; b; c] p.
Proof.
  intros A C D E. split; [|exact E]. intros (g & [<-|[<-|[<-|[]]]] & O); revert O; apply cr_off; lra.
Qed.
Lemma tri_edges a b c : 0 < cr a b c -> nondegenerate [a; b; c] /\ no_spikes [a; b; c].
Proof.
  destruct a as [a1 a2], b as [b1 b2], c as [c1 c2]. unfold cr. cbn [px py]. intros H. split.
  - intros g [<-|[<-|[<-|[]]]]; cbn [es ee]; intros Q; injection Q; intros; subst; lra.
  - intros f g [<-|[<-|[<-|[]]]] [<-|[<-|[<-|[]]]]; unfold edet; cbn [es ee px py]; intros Q Z; try (injection Q; intros; subst); exfalso; lra.
Qed.
Ltac tri_eo := unfold even_odd, parity, crosses, straddles, cross_x, rp; cbn [ring path_edges fold_right px py es ee]; rcmp; cbn [xorb andb];
  repeat (match goal with |- context [Rltb ?x (?a + ?y * (?k / ?d))] => first [rewrite (cx_pos x a y k d) by lra|rewrite (cx_neg x a y k d) by lra] end); rcmp; reflexivity.
Ltac small_z := first [apply Z.leb_le; reflexivity].

Definition r_haz : poly R := im_poly v q_haz.
Definition r_item : poly R := im_poly v q_item.
Lemma r_haz_eq : r_haz = Poly [rp (-9382978) (-3545217); rp 16661669 2752979; rp 1469190 16777215]
  (Rc (IZR (-9382978) / 16384) (IZR (-3545217) / 16384) (IZR 16661669 / 16384) (IZR 16777215 / 16384)) (IZR 0 / 16384) (IZR 0 / 16384) (Ci (rp 1469190 4000000) (IZR 1 / 16384)) None.
Proof. unfold r_haz, im_poly, q_haz, im_rect, im_circle. cbn [map p_pts p_bbox p_area p_diam p_poi p_surr ccen crad x_min y_min x_max y_max option_map]. rewrite !qp_v, !q_v by small_z. reflexivity. Qed.
Lemma r_item_eq : r_item = Poly [rp (-10161831) (-6881140); rp 121819 (-5872694); rp (-5317292) (-2562040)]
  (Rc (IZR (-10161831) / 16384) (IZR (-6881140) / 16384) (IZR 121819 / 16384) (IZR (-2562040) / 16384)) (IZR 0 / 16384) (IZR 0 / 16384) (Ci (rp (-5317292) (-5000000)) (IZR 1 / 16384)) None.
Proof. unfold r_item, im_poly, q_item, im_rect, im_circle. cbn [map p_pts p_bbox p_area p_diam p_poi p_surr ccen crad x_min y_min x_max y_max option_map]. rewrite !qp_v, !q_v by small_z. reflexivity. Qed.
Ltac num := unfold cr, rp; cbn [px py]; lra.
Ltac vertex i := first [exists (nth i [rp 0 0] (rp 0 0))].
Lemma haz_good : good_shape r_haz.
Proof.
  rewrite r_haz_eq. destruct (tri_edges (rp (-9382978) (-3545217)) (rp 16661669 2752979) (rp 1469190 16777215)) as [N S]; [num|].
  split; cbn [p_pts p_bbox p_poi ccen]; [exact N|exact S|split; cbn [x_min y_min x_max y_max]; lra| |].
  - split; [|split; [|split; [|split]]]; cbn [x_min y_min x_max y_max].
    + intros p [<-|[<-|[<-|[]]]]; split; cbn [x_min y_min x_max y_max rp px py]; lra.
    + exists (rp (-9382978) (-3545217)). split; [left; reflexivity|reflexivity].
    + exists (rp 16661669 2752979). split; [right; left; reflexivity|reflexivity].
    + exists (rp (-9382978) (-3545217)). split; [left; reflexivity|reflexivity].
    + exists (rp 1469190 16777215). split; [right; right; left; reflexivity|reflexivity].
  - apply tri_interior; [num|num|num|tri_eo].
Qed.
Lemma item_good : good_shape r_item.
Proof.
  rewrite r_item_eq. destruct (tri_edges (rp (-10161831) (-6881140)) (rp 121819 (-5872694)) (rp (-5317292) (-2562040))) as [N S]; [num|].
  split; cbn [p_pts p_bbox p_poi ccen]; [exact N|exact S|split; cbn [x_min y_min x_max y_max]; lra| |].
  - split; [|split; [|split; [|split]]]; cbn [x_min y_min x_max y_max].
    + intros p [<-|[<-|[<-|[]]]]; split; cbn [x_min y_min x_max y_max rp px py]; lra.
    + exists (rp (-10161831) (-6881140)). split; [left; reflexivity|reflexivity].
    + exists (rp 121819 (-5872694)). split; [right; left; reflexivity|reflexivity].
    + exists (rp (-10161831) (-6881140)). split; [left; reflexivity|reflexivity].
    + exists (rp (-5317292) (-2562040)). split; [right; right; left; reflexivity|reflexivity].
  - apply tri_interior; [num|num|num|tri_eo].
Qed.
(** a vertex of the item lies strictly inside the hazard *)
Lemma tip_inside : region (p_pts r_item) (rp (-5317292) (-2562040)) /\ interior (p_pts r_haz) (rp (-5317292) (-2562040)).
Proof.
  rewrite r_item_eq, r_haz_eq. cbn [p_pts]. split.
  - left. exists (Ed (rp (-5317292) (-2562040)) (rp (-10161831) (-6881140))). split; [right; right; left; reflexivity|].
    exists 0. split; [lra|]. unfold at_t, rp. cbn [px py es ee]. f_equal; lra.
  - apply tri_interior; [num|num|num|tri_eo].
Qed.

Section Run.
  Variables (umax : nat) (alm : f32 -> f32 -> bool).
  #[local] Instance NQ : Num f32 := FloatNum 24 128 prec32 emax32 umax alm.
  #[local] Existing Instance NatEqD.
  #[local] Existing Instance LinSearch.
  (** numbers the tolerant comparison identifies differ by at most 1 *)
  Hypothesis HT : forall x y, is_finite x = true -> is_finite y = true -> alm x y = true -> Rabs (v x - v y) <= 1.
  Lemma alm_far m n : (Z.abs m <= 2 ^ 24)%Z -> (Z.abs n <= 2 ^ 24)%Z -> 1 < Rabs (IZR m / 16384 - IZR n / 16384) -> alm (q32 m) (q32 n) = false.
  Proof.
    intros Hm Hn H. destruct (alm (q32 m) (q32 n)) eqn:E; [|reflexivity]. destruct (q_ex m Hm) as [F V], (q_ex n Hn) as [G W].
    apply HT in E; [|assumption|assumption]. rewrite V, W in E. lra.
  Qed.
  Lemma q_valid : valid (F := f32) [] q_ops.
  Proof.
    split; [split; constructor|]. exists (fun _ => (q_haz, true)). split; [|exact Logic.I]. split; [|split; [reflexivity|split; intros []]].
    intros i Hi. destruct i as [|[|[|i]]]; [..|exfalso; cbn in Hi; lia]; eexists; reflexivity.
  Qed.
  Lemma q_edges : match engine q_bb [] 0 0 q_ops with Ok (c, _) => by_edge_intersection c q_item [] | Panic => Panic end = Ok false.
  Proof. lazy. reflexivity. Qed.
  Lemma q_rel : match engine q_bb [] 0 0 q_ops with Ok (c, _) => relation_to (cd_bbox c) (p_bbox q_item) | Panic => Disjoint end = Surrounding.
  Proof. lazy. reflexivity. Qed.
  Lemma q_all : match engine q_bb [] 0 0 q_ops with Ok (c, _) => all_hazards c | Panic => [] end = [q_h].
  Proof. reflexivity. Qed.
  Lemma q_arel : almost_relation_to (p_bbox q_haz) (p_bbox q_item) = Disjoint \/ almost_relation_to (p_bbox q_haz) (p_bbox q_item) = Intersecting.
  Proof.
    unfold almost_relation_to. destruct (rr_almost_collides _ _); [right|left; reflexivity].
    cbn [p_bbox q_haz q_item x_min y_min x_max y_max].
    assert (E1 : fpa_le (q32 (-9382978)) (q32 (-10161831)) = false).
    { unfold fpa_le. replace (falmost (q32 (-9382978)) (q32 (-10161831))) with false; [lazy; reflexivity|].
      symmetry. apply alm_far; [small_z|small_z|]. rewrite Rabs_pos_eq; lra. }
    assert (E2 : fpa_le (q32 16661669) (q32 121819) = false).
    { unfold fpa_le. replace (falmost (q32 16661669) (q32 121819)) with false; [lazy; reflexivity|].
      symmetry. apply alm_far; [small_z|small_z|]. rewrite Rabs_pos_eq; lra. }
    rewrite E1, E2. cbn [andb]. rewrite !andb_false_r. reflexivity.
  Qed.
  Lemma q_accepted : exists c sn, engine q_bb [] 0 0 q_ops = Ok (c, sn) /\ ask c (AskPoly q_item []) = Ok TFalse.
  Proof.
    pose proof q_edges as E1. pose proof q_rel as E2. pose proof q_all as E3.
    destruct (engine q_bb [] 0 0 q_ops) as [[c sn]|]; [|discriminate E1]. exists c, sn. split; [reflexivity|].
    cbn [ask]. unfold poly_collides. rewrite E2, E1. cbn [rbind]. unfold by_containment. rewrite E3.
    cbn [filter q_h h_active h_ent memb negb andb existsb rany]. unfold are_contained. cbn [h_shape a_obj q_h].
    destruct q_arel as [-> | ->]; reflexivity.
  Qed.
End Run.

(** the statement of the refutation *)
Lemma overlap_accepted : forall (umax : nat) (alm : f32 -> f32 -> bool),
  (forall x y, is_finite x = true -> is_finite y = true -> alm x y = true -> Rabs (v x - v y) <= 1) ->
  let N := FloatNum 24 128 prec32 emax32 umax alm in
  exists (bb : rect f32) (ops : list (op f32 nat)) (s : poly f32) c sn f p,
    valid (N := N) (ED := NatEqD) [] ops /\ engine (N := N) (ED := NatEqD) (BS := LinSearch) bb [] 0 0 ops = Ok (c, sn) /\
    framed (im_rect v bb) (map (im_fact v) (facts (ED := NatEqD) [] ops)) /\
    good_facts (map (im_fact v) (facts (ED := NatEqD) [] ops)) /\ all_active (map (im_fact v) (facts (ED := NatEqD) [] ops)) /\
    good_shape (im_poly v s) /\ box_inside (im_rect v bb) (im_poly v s) /\
    ask (N := N) (ED := NatEqD) c (AskPoly s []) = Ok TFalse /\
    In f (map (im_fact v) (facts (ED := NatEqD) [] ops)) /\ region (p_pts (im_poly v s)) p /\ strictly_blocked f p.
Proof.
  intros umax alm HT N. destruct (q_accepted umax alm HT) as (c & sn & E & A).
  exists q_bb, q_ops, q_item, c, sn, (im_fact v (PlacedItem 1 0%nat, q_haz, true)), (rp (-5317292) (-2562040)).
  assert (B : im_rect v q_bb = Rc (IZR (-16777216) / 16384) (IZR (-16777216) / 16384) (IZR 16777216 / 16384) (IZR 16777216 / 16384)).
  { unfold im_rect, q_bb. cbn [x_min y_min x_max y_max]. rewrite !q_v by small_z. reflexivity. }
  split; [exact (q_valid umax alm)|]. split; [exact E|]. rewrite B.
  split; [split; [split; cbn [x_min y_min x_max y_max]; lra|intros f [<-|[]] H; discriminate H]|].
  split; [intros f [<-|[]]; exact haz_good|]. split; [intros f [<-|[]]; reflexivity|]. split; [exact item_good|].
  split; [|split; [exact A|split; [left; reflexivity|exact tip_inside]]].
  intros p. change (p_bbox (im_poly v q_item)) with (p_bbox r_item). rewrite r_item_eq. cbn [p_bbox]. unfold in_rect. cbn [x_min y_min x_max y_max]. lra.
Qed.
