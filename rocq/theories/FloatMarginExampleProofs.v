(** A crossing that meets the hypotheses of the statement about clear crossings. *)
From Coq Require Import ZArith Lia Bool List.
From Flocq Require Import Core IEEE754.BinarySingleNaN.
From Verif Require Import Base BaseProofs Num FloatModel FloatArithProofs GeoModel HazardModel QTModel TransfModel HpgModel CdeModel CdeProofs CdeSpec CdeHistProofs CdeThmProofs Instances
  GeoSpec SimplSpec PlaceSpec ParityProofs GeoPrimProofs GeoThmProofs HullProofs FloatSpec FloatMarginSpec SimProofs FloatGeoProofs FloatGridProofs FloatThmProofs FloatExampleProofs FloatMarginThmProofs.
From Coq Require Import Reals Lra.
From Verif Require Import GeoModel HazardModel QTModel TransfModel CdeModel CdeSpec GeoSpec SimplSpec PlaceSpec FloatSpec.
Import ListNotations.
Local Open Scope R_scope.
#[local] Existing Instance RNum.
#[local] Existing Instance NatEqD.
#[local] Existing Instance LinSearch.

Section Ex.
  Context {prec emax : Z} (Hp : Prec_gt_0 prec) (Hm : Prec_lt_emax prec emax) (umax : nat).
  Local Notation fl := (binary_float prec emax).
  Local Notation v := (@B2R prec emax).
  #[local] Instance NX : Num fl := FloatNum prec emax Hp Hm umax Beqb.
  Hypothesis H24 : (24 <= prec)%Z.
  Hypothesis Hmx : (prec + 9 < emax)%Z.
  Local Notation fz := (fz Hp Hm).
  Local Notation bb := (fb_bb Hp Hm).
  Local Notation m := (margin prec 7).
  (** the right side of the placed square, and an edge through it *)
  Definition x_haz : edge fl := Ed (Pt (fz 56) (fz 40)) (Pt (fz 56) (fz 56)).
  Definition x_edge : edge fl := Ed (Pt (fz 50) (fz 45)) (Pt (fz 70) (fz 46)).
  Lemma zv n : (Z.abs n <= 341)%Z -> v (fz n) = IZR n. Proof. intros H. apply fz1; assumption. Qed.
  Lemma zw n : (Z.abs n <= 100)%Z -> within 7 (fz n).
  Proof.
    intros H. split; [apply fz1; try assumption; lia|]. rewrite zv by lia. rewrite <- abs_IZR. change (bpow radix2 7) with (IZR 128). apply IZR_le. lia.
  Qed.
  Lemma x_within : edge_within 7 x_edge /\ edge_within 7 x_haz /\ rect_within 7 bb /\ rect_within 7 (Rc (fz 40) (fz 40) (fz 56) (fz 56)).
  Proof. repeat split; apply zw; lia. Qed.
  Lemma x_v : im_edge v x_edge = Ed (Pt 50 45) (Pt 70 46) /\ im_edge v x_haz = Ed (Pt 56 40) (Pt 56 56) /\ im_rect v bb = Rc 0 0 80 80 /\
    im_rect v (Rc (fz 40) (fz 40) (fz 56) (fz 56)) = Rc 40 40 56 56.
  Proof. unfold im_edge, im_point, im_rect, x_edge, x_haz, fb_bb. cbn [es ee px py x_min y_min x_max y_max]. rewrite !zv by lia. auto. Qed.
  Lemma x_margin : 0 < m <= 1.
  Proof.
    unfold margin. split; [apply bpow_gt_0|]. change 1 with (bpow radix2 0). apply bpow_le. lia.
  Qed.
  Lemma x_cross : clear_cross m (im_edge v x_edge) (im_edge v x_haz).
  Proof.
    destruct x_v as (-> & -> & _). pose proof x_margin. unfold clear_cross, splits, clear_left, clear_right, turn. cbn [es ee px py]. lra.
  Qed.
  Lemma halves a b : a < b -> quadrants (Rc a a b b) = Q4 (Rc ((a + b) / 2) ((a + b) / 2) b b) (Rc a ((a + b) / 2) ((a + b) / 2) b)
     (Rc a a ((a + b) / 2) ((a + b) / 2)) (Rc ((a + b) / 2) a b ((a + b) / 2)).
  Proof.
    intros H. unfold quadrants, q4map, corners, r_centroid, e_bbox, e_xmin, e_xmax, e_ymin, e_ymax, f2. cbn [qa qb qc qd es ee px py x_min y_min x_max y_max]. unr.
    replace (1 + 1) with 2 by lra. rewrite (Rmin_right b), (Rmin_left a), (Rmax_left b), (Rmax_right a) by lra. reflexivity.
  Qed.
  Lemma x_quads : exists q, quadrants bb = q /\ q4map (im_rect v) q = Q4 (Rc 40 40 80 80) (Rc 0 40 40 80) (Rc 0 0 40 40) (Rc 40 0 80 40) /\
    q4map (im_rect v) (quadrants (q4get q 0)) = Q4 (Rc 60 60 80 80) (Rc 40 60 60 80) (Rc 40 40 60 60) (Rc 60 40 80 60).
  Proof.
    eexists. split; [reflexivity|]. assert (Hp1 : (1 < prec)%Z) by lia.
    destruct (g_quad Hp Hm umax Beqb 0 341 (fb_fits Hp H24 Hmx) Hp1 1 bb (fb_box Hp Hm H24 Hmx)) as [Q C].
    destruct x_v as (_ & _ & B & _). rewrite B, halves in Q by lra.
    destruct (g_quad Hp Hm umax Beqb 0 341 (fb_fits Hp H24 Hmx) Hp1 0 _ (C 0%nat)) as [Q' _].
    split.
    - assert (E : q4map (im_rect v) (quadrants bb) = Q4 (Rc ((0 + 80) / 2) ((0 + 80) / 2) 80 80) (Rc 0 ((0 + 80) / 2) ((0 + 80) / 2) 80)
         (Rc 0 0 ((0 + 80) / 2) ((0 + 80) / 2)) (Rc ((0 + 80) / 2) 0 80 ((0 + 80) / 2))) by (symmetry; exact Q).
      rewrite E. replace ((0 + 80) / 2) with 40 by lra. reflexivity.
    - assert (E0 : im_rect v (q4get (quadrants bb) 0) = Rc 40 40 80 80).
      { assert (E1 : im_rect v (q4get (quadrants bb) 0) = qa (q4map (im_rect v) (quadrants bb))) by reflexivity. rewrite E1.
        match type of Q with ?L = _ => assert (E2 : qa (q4map (im_rect v) (quadrants bb)) = qa L) by (symmetry; exact (f_equal qa Q)) end. rewrite E2. cbn [qa]. f_equal; lra. }
      assert (E3 : q4map (im_rect v) (quadrants (q4get (quadrants bb) 0)) = quadrants (im_rect v (q4get (quadrants bb) 0))) by (symmetry; exact Q').
      rewrite E3, E0, halves by lra. replace ((40 + 80) / 2) with 60 by lra. reflexivity.
  Qed.
  Lemma x_path : clear_path m 2 bb x_edge x_haz (Rc (fz 40) (fz 40) (fz 56) (fz 56)).
  Proof.
    destruct x_quads as (q & Eq & Q1 & Q2). destruct x_v as (Ve & Vg & Vb & Vh).
    assert (K1 : forall j, (j < 4)%nat -> im_rect v (q4get q j) = q4get (Q4 (Rc 40 40 80 80) (Rc 0 40 40 80) (Rc 0 0 40 40) (Rc 40 0 80 40)) j).
    { intros j Hj. rewrite <- Q1. destruct j as [|[|[|[|j]]]]; try lia; reflexivity. }
    assert (K2 : forall j, (j < 4)%nat -> im_rect v (q4get (quadrants (q4get q 0)) j) = q4get (Q4 (Rc 60 60 80 80) (Rc 40 60 60 80) (Rc 40 40 60 60) (Rc 60 40 80 60)) j).
    { intros j Hj. rewrite <- Q2. destruct j as [|[|[|[|j]]]]; try lia; reflexivity. }
    cbn [clear_path]. rewrite Eq, Ve, Vg, Vb, Vh. unfold clear_hit, in_rect, box_in, proper.
    split; [cbn; lra|]. split; [left; cbn; lra|]. exists 0%nat. split; [lia|]. rewrite K1 by lia.
    split; [left; cbn; lra|]. split.
    { intros j Hj Nj. rewrite K1 by exact Hj. destruct j as [|[|[|[|j]]]]; try lia; cbn; lra. }
    split; [cbn; lra|]. split; [left; cbn; lra|]. exists 2%nat. split; [lia|]. rewrite K2 by lia.
    split; [left; cbn; lra|]. split.
    { intros j Hj Nj. rewrite K2 by exact Hj. destruct j as [|[|[|[|j]]]]; try lia; cbn; lra. }
    split; [cbn; lra|]. split; [left; cbn; lra|]. left; cbn; lra.
  Qed.
  Lemma x_hyps : let N := NX in exists f c sn,
    valid (fb_st Hp Hm umax) (fb_ops Hp Hm umax) /\ engine bb (fb_st Hp Hm umax) 2 0 (fb_ops Hp Hm umax) = Ok (c, sn) /\ rect_within 7 bb /\
    In f (facts (fb_st Hp Hm umax) (fb_ops Hp Hm umax)) /\ side (p_pts (fact_poly f)) x_haz /\ edge_within 7 x_edge /\ edge_within 7 x_haz /\
    rect_within 7 (p_bbox (fact_poly f)) /\ proper (im_rect v (p_bbox (fact_poly f))) /\
    clear_cross m (im_edge v x_edge) (im_edge v x_haz) /\ clear_path m 2 bb x_edge x_haz (p_bbox (fact_poly f)).
  Proof.
    intros N. destruct (fb_engine Hp Hm umax H24 Hmx) as (c & sn & E). destruct x_within as (W1 & W2 & W3 & W4).
    exists (PlacedItem 1 0%nat, fbox Hp Hm umax 40 40 56 56, true), c, sn.
    split; [exact (fb_valid Hp Hm umax H24 Hmx)|]. split; [exact E|]. split; [exact W3|]. split; [cbn; right; left; reflexivity|].
    split; [exists 1%nat; split; reflexivity|]. split; [exact W1|]. split; [exact W2|]. split; [exact W4|].
    split; [change (proper (im_rect v (Rc (fz 40) (fz 40) (fz 56) (fz 56)))); destruct x_v as (_ & _ & _ & ->); split; cbn; lra|].
    split; [exact x_cross|exact x_path].
  Qed.
End Ex.
