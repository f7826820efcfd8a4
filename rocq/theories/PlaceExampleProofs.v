(** A bin with a placed item, in exact arithmetic: the hypotheses of the statements
    about feasible placements are met, by an accepted and by two rejected polygons. *)
From Coq Require Import List Bool Lra Lia Arith.
From Verif Require Import Base Num GeoModel HazardModel QTModel BaseProofs QTProofs TransfModel HpgModel CdeModel
  CdeProofs CdeSpec CdeHistProofs CdeThmProofs Instances GeoSpec ParityProofs GeoPrimProofs GeoRectProofs PipProofs
  TouchProofs RegionProofs PlaceSpec CdeGeoProofs RigidProofs GeoThmProofs CdeGeoThmProofs.
From Coq Require Import Reals.
From Verif Require Import GeoModel HazardModel QTModel TransfModel CdeModel CdeSpec GeoSpec.
Import ListNotations.
Local Open Scope R_scope.
#[local] Existing Instance RNum.
#[local] Existing Instance NatEqD.
#[local] Existing Instance LinSearch.

(** a rectangle with the disk of radius [k] in its centre and its horizontal midline as
    surrogate *)
Definition rbox (a b c d k : R) : poly R :=
  let m := Pt ((a + c) / 2) ((b + d) / 2) in
  Poly [Pt a b; Pt c b; Pt c d; Pt a d] (Rc a b c d) 0 0 (Ci m k)
    (Some (Sur [0; 1; 2; 3]%nat [Ci m k] (Ci m k) [Ed (Pt a ((b + d) / 2)) (Pt c ((b + d) / 2))] 1)).

Lemma rbox_smallest : forall a b c d k, a < c -> b < d -> smallest_box (Rc a b c d) (p_pts (rbox a b c d k)).
Proof.
  intros a b c d k X Y. split; [|split; [|split; [|split]]]; cbn [x_min x_max y_min y_max].
  - intros v H. simpl in H. repeat (destruct H as [<-|H]; [split; simpl; lra|]). destruct H.
  - exists (Pt a b). simpl; auto.
  - exists (Pt c b). simpl; auto.
  - exists (Pt a b). simpl; auto.
  - exists (Pt c d). simpl; auto.
Qed.
Lemma rbox_inside : forall a b c d k p, a < px p < c -> b < py p < d -> interior (p_pts (rbox a b c d k)) p.
Proof.
  intros a b c d k [x y] (X1 & X2) (Y1 & Y2). cbn [px py] in *. split.
  - apply not_border. intros e He t Ht Q. simpl in He.
    repeat (destruct He as [<-|He]; [injection Q; simpl; intros; nra|]). destruct He.
  -
    unfold even_odd, parity, crosses, straddles, cross_x; simpl.
    replace (Rltb b y) with true by (symmetry; apply Rltb_spec; lra).
    replace (Rltb d y) with false by (symmetry; apply Rltb_nspec; lra).
    cbn [xorb andb].
    replace (Rltb x (c + (y - b) * ((c - c) / (d - b)))) with true
      by (symmetry; apply Rltb_spec; replace ((y - b) * ((c - c) / (d - b))) with 0 by (field; lra); lra).
    replace (Rltb x (a + (y - d) * ((a - a) / (b - d)))) with false
      by (symmetry; apply Rltb_nspec; replace ((y - d) * ((a - a) / (b - d))) with 0 by (field; lra); lra).
    reflexivity.
Qed.
Lemma rbox_region : forall a b c d k p, a < c -> b < d -> region (p_pts (rbox a b c d k)) p -> in_rect (Rc a b c d) p.
Proof.
  intros a b c d k p X Y H. pose proof (proj1 (rbox_smallest a b c d k X Y)) as B.
  destruct (on_border_dec (p_pts (rbox a b c d k)) p) as [O|O]; [eapply border_in_box; eassumption|].
  destruct H as [H|H]; [contradiction|]. destruct (even_odd_box _ _ _ B O H) as (P & Q). split; simpl in *; lra.
Qed.
Lemma rbox_good : forall a b c d k, a < c -> b < d -> good_shape (rbox a b c d k).
Proof.
  intros a b c d k X Y. split.
  - intros e He. simpl in He. repeat (destruct He as [<-|He]; [intros Q; injection Q; intros; lra|]). destruct He.
  - intros e f He Hf. simpl in He, Hf. unfold edet, edot.
    repeat (destruct He as [<-|He]; [repeat (destruct Hf as [<-|Hf]; [cbn [px py es ee]; intros Q Dt; try (injection Q; intros); exfalso; nra|]); destruct Hf|]).
    destruct He.
  - split; simpl; lra.
  - apply rbox_smallest; assumption.
  - apply rbox_inside; simpl; lra.
Qed.

Definition ex_st : list (hazard R nat) := [Hz BinExterior (Arc 0 (rbox 0 0 10 10 5)) true].
Definition ex_item : poly R := rbox 5 5 7 7 1.
Definition ex_ops : list (op R nat) := [OReg (Hz (PlacedItem 1 0%nat) (Arc 1 ex_item) true)].
Definition ex_bb : rrect := Rc 0 0 10 10.

Lemma ex_valid : valid ex_st ex_ops.
Proof.
  assert (G : forall a b c d k, a < c -> b < d -> good_poly (rbox a b c d k)) by (intros; apply good_wf, rbox_good; assumption).
  split.
  - split; [constructor; [apply G; lra|constructor]|]. simpl. constructor; [intros []|constructor].
  - exists (fun e => match e with BinExterior => (rbox 0 0 10 10 5, true) | _ => (ex_item, true) end).
    simpl. split; [|exact Logic.I]. split; [apply G; lra|]. split; [reflexivity|]. split; [intros [K|[]]; discriminate|intros []].
Qed.
Lemma ex_engine : forall lvl, exists c sn, engine ex_bb ex_st lvl 0 ex_ops = Ok (c, sn).
Proof.
  intros lvl. destruct ex_valid as (S & shp & O). eapply engine_total; [exact LinSearch_ok|exact S|exact O].
Qed.
Lemma ex_good : good_facts (facts ex_st ex_ops).
Proof. intros f [<-|[<-|[]]]; apply rbox_good; lra. Qed.
Lemma ex_active : all_active (facts ex_st ex_ops).
Proof. intros f [<-|[<-|[]]]; reflexivity. Qed.
Lemma ex_framed : framed ex_bb (facts ex_st ex_ops).
Proof.
  split; [split; simpl; lra|]. intros f [<-|[<-|[]]] H; [|discriminate]. unfold f_poly, inflate_to_square, ex_bb. simpl. unr.
  rdestr (10 - 0) (10 - 0); [lra|]. f_equal; lra.
Qed.
Lemma ex_feasible : feasible (rbox 1 1 4 5 1) [] (facts ex_st ex_ops).
Proof.
  intros f [<-|[<-|[]]] _ _ p Rp; apply rbox_region in Rp as (X & Y); try lra; simpl in X, Y; intros Bl.
  - unfold blocked in Bl. cbn [f_ent ent_position fst snd f_poly fact_of h_ent h_shape a_obj ex_st map] in Bl.
    destruct (rbox_inside 0 0 10 10 5 p) as (N & Eo); [lra|lra|]. destruct Bl as [Bl|Bl]; [contradiction|].
    unfold f_poly in Bl. simpl in Bl, Eo. rewrite Eo in Bl. discriminate.
  - unfold blocked in Bl. cbn in Bl. change (region (p_pts (rbox 5 5 7 7 1)) p) in Bl. apply rbox_region in Bl; [|lra|lra]. destruct Bl as (X' & Y'). simpl in X', Y'. lra.
Qed.
(** overlaps the item *)
Lemma ex_infeasible : ~ feasible (rbox 6 6 9 9 1) [] (facts ex_st ex_ops).
Proof.
  intros H. refine (H _ (or_intror (or_introl eq_refl)) eq_refl _ (Pt (13/2) (13/2)) _ _); [intros []| |].
  - right. apply (rbox_inside 6 6 9 9 1); simpl; lra.
  - unfold blocked. cbn. right. apply (rbox_inside 5 5 7 7 1); simpl; lra.
Qed.
(** shares a part of one edge with the item, nothing else *)
Lemma ex_touching : ~ feasible (rbox 7 (11/2) 9 (13/2) (1/2)) [] (facts ex_st ex_ops).
Proof.
  intros H. refine (H _ (or_intror (or_introl eq_refl)) eq_refl _ (Pt 7 6) _ _); [intros []| |].
  - left. exists (Ed (Pt 7 (13/2)) (Pt 7 (11/2))). split; [simpl; auto|]. exists (1/2). split; [lra|].
    unfold at_t; simpl. apply pt_ext; simpl; lra.
  - unfold blocked. cbn. left. exists (Ed (Pt 7 5) (Pt 7 7)). split; [simpl; auto|]. exists (1/2). split; [lra|].
    unfold at_t; simpl. apply pt_ext; simpl; lra.
Qed.
Lemma ex_verdicts : forall lvl, exists c sn, engine ex_bb ex_st lvl 0 ex_ops = Ok (c, sn) /\
  ask c (AskPoly (rbox 1 1 4 5 1) []) = Ok TFalse /\
  ask c (AskPoly (rbox 6 6 9 9 1) []) = Ok TTrue /\
  ask c (AskPoly (rbox 7 (11/2) 9 (13/2) (1/2)) []) = Ok TTrue.
Proof.
  intros lvl. destruct (ex_engine lvl) as (c & sn & E). exists c, sn. split; [exact E|].
  assert (K : forall s, good_shape s -> (ask c (AskPoly s []) = Ok TFalse <-> feasible s [] (facts ex_st ex_ops))).
  { intros s Gs. apply (accepted_iff_feasible LinSearch_ok ex_bb ex_st lvl 0 ex_ops c sn ex_valid E ex_framed ex_good ex_active s [] Gs).
    right. eexists. split; [left; reflexivity|]. split; [reflexivity|]. intros []. }
  assert (T : forall s, good_shape s -> ~ feasible s [] (facts ex_st ex_ops) -> ask c (AskPoly s []) = Ok TTrue).
  { intros s Gs N. pose proof (K s Gs) as Q.
    rewrite (asked LinSearch_ok ex_bb ex_st lvl 0 ex_ops c sn ex_valid E) in * by (apply good_wf; exact Gs).
    cbn [answer] in *. destruct (opoly _ _ _ _ _); [reflexivity|]. exfalso. apply N, Q. reflexivity. }
  split; [apply K; [apply rbox_good; lra|apply ex_feasible]|].
  split; apply T; try (apply rbox_good; lra); [apply ex_infeasible|apply ex_touching].
Qed.

(** a shape with surrogate, turned by an angle with cosine 3/5 and moved *)
Definition ex_shape : poly R := rbox (-1) (-1) 1 1 1.
Definition ex_t : transf R := Mk (3/5) (- (4/5)) 3 (4/5) (3/5) 4 0 0 1.
Lemma ex_surrogate : good_shape ex_shape /\ rigid ex_t /\
  (exists u, p_surr ex_shape = Some u /\ surrogate_inside ex_shape u) /\
  (exists b, tr_poly_from ex_t ex_shape ex_shape = Ok b).
Proof.
  assert (G : good_shape ex_shape) by (apply rbox_good; lra).
  split; [exact G|]. split; [unfold rigid; simpl; lra|]. split; [|eexists; reflexivity].
  assert (K : forall p, in_rect (Rc (-1) (-1) 1 1) p -> region (p_pts ex_shape) p).
  { intros [x y] (X & Y). simpl in X, Y. unfold region.
    assert (Q : forall g, In g (ring (p_pts ex_shape)) -> on_seg g (Pt x y) -> on_border (p_pts ex_shape) (Pt x y)) by (intros g A B; exists g; auto).
    destruct (Req_dec x 1) as [->|X1]; [left; apply (Q (Ed (Pt 1 (-1)) (Pt 1 1))); [simpl; auto|exists ((y + 1) / 2); split; [lra|unfold at_t; simpl; apply pt_ext; simpl; lra]]|].
    destruct (Req_dec x (-1)) as [->|X2]; [left; apply (Q (Ed (Pt (-1) 1) (Pt (-1) (-1)))); [simpl; auto|exists ((1 - y) / 2); split; [lra|unfold at_t; simpl; apply pt_ext; simpl; lra]]|].
    destruct (Req_dec y 1) as [->|Y1]; [left; apply (Q (Ed (Pt 1 1) (Pt (-1) 1))); [simpl; auto|exists ((1 - x) / 2); split; [lra|unfold at_t; simpl; apply pt_ext; simpl; lra]]|].
    destruct (Req_dec y (-1)) as [->|Y2]; [left; apply (Q (Ed (Pt (-1) (-1)) (Pt 1 (-1)))); [simpl; auto|exists ((x + 1) / 2); split; [lra|unfold at_t; simpl; apply pt_ext; simpl; lra]]|].
    right. apply (rbox_inside (-1) (-1) 1 1 1); simpl; lra. }
  eexists. split; [reflexivity|]. split; [simpl; lia|]. split.
  - intros k [<-|[]]. split; [simpl; lra|]. intros [x y] H. apply K. unfold in_disk, edist in H. simpl in H.
    assert (S : x * x + y * y <= 1).
    { replace (x * x + y * y) with ((x - (-1 + 1) / 2) ^ 2 + (y - (-1 + 1) / 2) ^ 2) by field.
      set (z := (x - (-1 + 1) / 2) ^ 2 + (y - (-1 + 1) / 2) ^ 2) in *.
      assert (Z : 0 <= z) by (unfold z; pose proof (pow2_ge_0 (x - (-1 + 1) / 2)); pose proof (pow2_ge_0 (y - (-1 + 1) / 2)); lra).
      rewrite <- (sqrt_sqrt z Z). pose proof (sqrt_pos z). assert (sqrt z <= 1) by (unfold z; simpl; exact H). nra. }
    split; simpl; nra.
  - intros e [<-|[]] p (t & Ht & ->). apply K. unfold at_t; simpl. split; simpl; lra.
Qed.
Lemma ex_hypotheses : valid ex_st ex_ops /\ framed ex_bb (facts ex_st ex_ops) /\ good_facts (facts ex_st ex_ops) /\ all_active (facts ex_st ex_ops) /\
  good_shape (rbox 1 1 4 5 1) /\ good_shape (rbox 6 6 9 9 1).
Proof.
  split; [apply ex_valid|]. split; [apply ex_framed|]. split; [apply ex_good|]. split; [apply ex_active|].
  split; apply rbox_good; lra.
Qed.
