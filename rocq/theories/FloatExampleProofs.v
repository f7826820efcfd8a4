(** A bin with a placed item in single and double precision that meets the hypotheses of
    the statements about the grid. *)
From Coq Require Import ZArith Lia Bool List.
From Flocq Require Import Core IEEE754.BinarySingleNaN.
From Verif Require Import Base BaseProofs Num FloatModel FloatArithProofs GeoModel HazardModel QTModel TransfModel HpgModel CdeModel CdeProofs CdeSpec CdeHistProofs CdeThmProofs Instances
  GeoSpec PlaceSpec ParityProofs GeoPrimProofs GeoThmProofs CdeGeoProofs CdeGeoThmProofs PlaceExampleProofs FloatSpec SimProofs FloatGeoProofs FloatGridProofs FloatThmProofs.
From Coq Require Import Reals Lra.
From Verif Require Import GeoModel HazardModel QTModel TransfModel CdeModel CdeSpec GeoSpec PlaceSpec FloatSpec.
Import ListNotations.
Local Open Scope R_scope.
#[local] Existing Instance NatEqD.
#[local] Existing Instance LinSearch.

Lemma lin_map A (f : A -> comparison) l : forall i, lin f i l = lin (fun c => c) i (map f l).
Proof. induction l as [|a l IH]; intros i; [reflexivity|]. cbn [map lin]. destruct (f a); rewrite ?IH; reflexivity. Qed.
Lemma lin_uniform : bsearch_uniform LinSearch.
Proof. intros A f l. apply lin_map. Qed.
Lemma eqb_tells {prec emax : Z} e B : tells_apart (prec := prec) (emax := emax) e B Beqb.
Proof.
  intros x y (X & _) (Y & _). rewrite (feq_fin x y X Y). unfold Reqb. destruct (Req_EM_T _ _) as [E|E]; split; intros H; try assumption; try reflexivity; [discriminate|contradiction].
Qed.

Section Ex.
  Context {prec emax : Z} (Hp : Prec_gt_0 prec) (Hm : Prec_lt_emax prec emax) (umax : nat).
  Local Notation fl := (binary_float prec emax).
  Local Notation v := (@B2R prec emax).
  #[local] Instance NE_ : Num fl := FloatNum prec emax Hp Hm umax Beqb.
  Hypothesis H24 : (24 <= prec)%Z.
  Hypothesis Hmx : (prec + 9 < emax)%Z.
  Definition fz (n : Z) : fl := binary_normalize prec emax Hp Hm mode_NE n 0 false.
  Lemma pow24 : (2 ^ 24 <= 2 ^ prec)%Z.
  Proof. apply Z.pow_le_mono_r; lia. Qed.
  Lemma fz_on n k : (0 <= k <= 8)%Z -> (Z.abs n <= 42)%Z -> on_grid k 42 (fz (n * 2 ^ k)) /\ v (fz (n * 2 ^ k)) = IZR (n * 2 ^ k).
  Proof.
    intros Hk Hn. pose proof pow24. assert (P : (0 < 2 ^ k)%Z) by (apply Z.pow_pos_nonneg; lia).
    assert (P2 : (2 ^ k <= 2 ^ 8)%Z) by (apply Z.pow_le_mono_r; lia). change (2 ^ 8)%Z with 256%Z in P2.
    assert (Q : (Z.abs (n * 2 ^ k) <= 2 ^ 24)%Z) by (change (2 ^ 24)%Z with 16777216%Z; nia).
    destruct (ex_norm Hp Hm (n * 2 ^ k) 0 (2 ^ 24) Q) as (F & E & _); [lia|lia|lia|]. change (bpow radix2 0) with 1 in E. rewrite Rmult_1_r in E.
    split; [|exact E]. split; [exact F|]. exists n. split; [|exact Hn]. unfold fz. rewrite E, mult_IZR. f_equal.
    change (2 ^ k)%Z with (radix2 ^ k)%Z. rewrite IZR_Zpower by lia. reflexivity.
  Qed.
  Lemma fz1 n : (Z.abs n <= 341)%Z -> on_grid 0 341 (fz n) /\ v (fz n) = IZR n.
  Proof.
    intros Hn. pose proof pow24. destruct (ex_norm Hp Hm n 0 341 Hn) as (F & E & N); [change (2 ^ 24)%Z with 16777216%Z in *; lia|lia|lia|].
    change (bpow radix2 0) with 1 in E. rewrite Rmult_1_r in E. split; [|exact E]. split; [exact F|].
    destruct N as (m & Em & Hm'). exists m. split; [|exact Hm']. unfold fz. rewrite <- Em, E. change (bpow radix2 0) with 1. ring.
  Qed.
  Definition fbox (a b c d : Z) : poly fl :=
    Poly [Pt (fz a) (fz b); Pt (fz c) (fz b); Pt (fz c) (fz d); Pt (fz a) (fz d)] (Rc (fz a) (fz b) (fz c) (fz d)) f0 f0
      (Ci (Pt (fz ((a + c) / 2)) (fz ((b + d) / 2))) f1) None.
  Definition fb_st : list (hazard fl nat) := [Hz BinExterior (Arc 0 (fbox 0 0 80 80)) true].
  Definition fb_ops : list (op fl nat) := [OReg (Hz (PlacedItem 1 0%nat) (Arc 1 (fbox 40 40 56 56)) true)].
  Definition fb_bb : rect fl := Rc (fz 0) (fz 0) (fz 80) (fz 80).
  Lemma fb_fits : fits (prec := prec) (emax := emax) 0 341.
  Proof.
    unfold fits. assert (2 ^ 23 <= 2 ^ (prec - 1))%Z by (apply Z.pow_le_mono_r; lia). change (2 ^ 23)%Z with 8388608%Z in *.
    unfold Prec_gt_0 in Hp. lia.
  Qed.
  Lemma fbox_on a b c d : (0 <= a <= 300 -> 0 <= b <= 300 -> 0 <= c <= 300 -> 0 <= d <= 300 -> poly_on 0 341 (fbox a b c d))%Z.
  Proof.
    intros A C D E. assert (Z1 : (0 <= (a + c) / 2 <= 300)%Z) by (split; [apply Z.div_pos; lia|apply Z.div_le_upper_bound; lia]).
    assert (Z2 : (0 <= (b + d) / 2 <= 300)%Z) by (split; [apply Z.div_pos; lia|apply Z.div_le_upper_bound; lia]).
    assert (G : forall n, (0 <= n <= 300)%Z -> on_grid 0 341 (fz n)) by (intros; apply fz1; lia).
    split; [|split].
    - repeat constructor; apply G; assumption.
    - split; [|split; [|split]]; apply G; assumption.
    - split; apply G; assumption.
  Qed.
  Lemma fb_box : box_on 3 0 341 fb_bb.
  Proof.
    unfold box_on. change (0 + Z.of_nat 3)%Z with 3%Z. change (341 / 2 ^ Z.of_nat 3)%Z with 42%Z.
    split; [|split; [|split]]; [apply (fz_on 0 3)|apply (fz_on 0 3)|apply (fz_on 10 3)|apply (fz_on 10 3)]; lia.
  Qed.
  Lemma fbox_v a b c d : (0 <= a <= 150 -> 0 <= b <= 150 -> 0 <= c <= 150 -> 0 <= d <= 150 ->
    p_pts (im_poly v (fbox (2 * a) (2 * b) (2 * c) (2 * d))) = p_pts (rbox (IZR (2 * a)) (IZR (2 * b)) (IZR (2 * c)) (IZR (2 * d)) 1) /\
    p_bbox (im_poly v (fbox (2 * a) (2 * b) (2 * c) (2 * d))) = p_bbox (rbox (IZR (2 * a)) (IZR (2 * b)) (IZR (2 * c)) (IZR (2 * d)) 1) /\
    ccen (p_poi (im_poly v (fbox (2 * a) (2 * b) (2 * c) (2 * d)))) = ccen (p_poi (rbox (IZR (2 * a)) (IZR (2 * b)) (IZR (2 * c)) (IZR (2 * d)) 1)))%Z.
  Proof.
    intros A C D E.
    assert (G : forall n, (0 <= n <= 300)%Z -> v (fz n) = IZR n) by (intros; apply fz1; lia).
    assert (M : forall x y, ((2 * x + 2 * y) / 2 = x + y)%Z) by (intros x y; replace (2 * x + 2 * y)%Z with ((x + y) * 2)%Z by lia; apply Z.div_mul; lia).
    unfold im_poly, fbox, rbox, im_rect, im_circle, im_point. cbn [map p_pts p_bbox p_poi ccen px py x_min y_min x_max y_max].
    rewrite !M. rewrite !G by lia. split; [reflexivity|]. split; [reflexivity|]. rewrite !plus_IZR, !mult_IZR. f_equal; lra.
  Qed.
  Lemma fbox_good a b c d : (0 <= a <= 150 -> 0 <= b <= 150 -> 0 <= c <= 150 -> 0 <= d <= 150 -> a < c -> b < d ->
    good_shape (im_poly v (fbox (2 * a) (2 * b) (2 * c) (2 * d))))%Z.
  Proof.
    intros A C D E X Y. destruct (fbox_v a b c d A C D E) as (P & Q & S).
    destruct (rbox_good (IZR (2 * a)) (IZR (2 * b)) (IZR (2 * c)) (IZR (2 * d)) 1) as [G1 G2 G3 G4 G5]; [apply IZR_lt; lia|apply IZR_lt; lia|].
    split; rewrite ?P, ?Q, ?S; assumption.
  Qed.
  Local Notation fb_facts := (map (im_fact v) (facts fb_st fb_ops)).
  Lemma fb_good : good_facts fb_facts.
  Proof. intros f [<-|[<-|[]]]; [apply (fbox_good 0 0 40 40)|apply (fbox_good 20 20 28 28)]; lia. Qed.
  Lemma fb_active : all_active fb_facts.
  Proof. intros f [<-|[<-|[]]]; reflexivity. Qed.
  Lemma fb_framed : framed (im_rect v fb_bb) fb_facts.
  Proof.
    assert (E : im_rect v fb_bb = Rc 0 0 80 80) by (unfold im_rect, fb_bb; cbn [x_min y_min x_max y_max]; rewrite (proj2 (fz1 0 ltac:(lia))), (proj2 (fz1 80 ltac:(lia))); reflexivity).
    rewrite E. split; [split; cbn [x_min y_min x_max y_max]; lra|]. intros f [<-|[<-|[]]] H; [|discriminate].
    match goal with |- _ = inflate_to_square ?r => assert (Er : r = Rc 0 0 80 80) by exact E end. rewrite Er.
    unfold inflate_to_square. cbn [x_min y_min x_max y_max]. unr. rdestr (80 - 0) (80 - 0); [lra|]. f_equal; lra.
  Qed.
  Lemma fb_hazards : Forall (hazard_on 0 341) fb_st /\ Forall (op_on 0 341) fb_ops.
  Proof. split; constructor; try constructor; apply fbox_on; lia. Qed.
  Lemma fb_on : poly_on 0 341 (fbox 8 8 32 32) /\ poly_on 0 341 (fbox 30 30 44 44).
  Proof. split; apply fbox_on; lia. Qed.
  Lemma fb_neq m n : (Z.abs m <= 341)%Z -> (Z.abs n <= 341)%Z -> m <> n -> Beqb (fz m) (fz n) = false.
  Proof.
    intros A C E. destruct (fz1 m A) as [(F & _) V], (fz1 n C) as [(G & _) W]. rewrite (feq_fin _ _ F G), V, W. unfold Reqb.
    destruct (Req_EM_T _ _) as [Q|Q]; [apply eq_IZR in Q; contradiction|reflexivity].
  Qed.
  Lemma fbox_wf a b c d : (0 <= a <= 300 -> 0 <= b <= 300 -> 0 <= c <= 300 -> 0 <= d <= 300 -> a < c -> b < d -> good_poly (fbox a b c d))%Z.
  Proof.
    intros A C D E X Y i Hi. cbn in Hi. unfold get_edge.
    assert (K : forall p q : point fl, pt_eq p q = false -> exists g, edge_new p q = Ok g) by (intros p q H; unfold edge_new; rewrite H; eexists; reflexivity).
    destruct i as [|[|[|[|i]]]]; [..|exfalso; lia]; cbn; apply K; unfold pt_eq; cbn [px py];
      change (@feq fl NE_) with (@Beqb prec emax); apply andb_false_iff; first [left; apply fb_neq; lia|right; apply fb_neq; lia].
  Qed.
  Lemma fb_valid : valid fb_st fb_ops.
  Proof.
    split.
    - split; [constructor; [apply fbox_wf; lia|constructor]|]. simpl. constructor; [intros []|constructor].
    - exists (fun e => match e with BinExterior => (fbox 0 0 80 80, true) | _ => (fbox 40 40 56 56, true) end).
      simpl. split; [|exact Logic.I]. split; [apply fbox_wf; lia|]. split; [reflexivity|]. split; [intros [K|[]]; discriminate|intros []].
  Qed.
  Lemma fb_engine : exists c sn, engine fb_bb fb_st 2 0 fb_ops = Ok (c, sn).
  Proof. destruct fb_valid as (S & shp & O). eapply engine_total; [exact LinSearch_ok|exact S|exact O]. Qed.
  Lemma fb_pts a b c d : (0 <= a <= 150 -> 0 <= b <= 150 -> 0 <= c <= 150 -> 0 <= d <= 150 ->
    p_pts (im_poly v (fbox (2 * a) (2 * b) (2 * c) (2 * d))) = p_pts (rbox (IZR (2 * a)) (IZR (2 * b)) (IZR (2 * c)) (IZR (2 * d)) 1))%Z.
  Proof. intros. apply fbox_v; assumption. Qed.
  Lemma pts_bin : p_pts (im_poly v (fbox 0 0 80 80)) = p_pts (rbox 0 0 80 80 1). Proof. apply (fb_pts 0 0 40 40); lia. Qed.
  Lemma pts_item : p_pts (im_poly v (fbox 40 40 56 56)) = p_pts (rbox 40 40 56 56 1). Proof. apply (fb_pts 20 20 28 28); lia. Qed.
  Lemma pts_free : p_pts (im_poly v (fbox 8 8 32 32)) = p_pts (rbox 8 8 32 32 1). Proof. apply (fb_pts 4 4 16 16); lia. Qed.
  Lemma pts_over : p_pts (im_poly v (fbox 30 30 44 44)) = p_pts (rbox 30 30 44 44 1). Proof. apply (fb_pts 15 15 22 22); lia. Qed.
  Lemma fb_feasible : feasible (im_poly v (fbox 8 8 32 32)) [] fb_facts.
  Proof.
    intros f Hf _ _ p. rewrite pts_free. intros Hr. apply rbox_region in Hr; [|lra|lra]. destruct Hr as ((X1 & X2) & Y1 & Y2). cbn [x_min y_min x_max y_max] in *.
    destruct Hf as [<-|[<-|[]]].
    - destruct (rbox_inside 0 0 80 80 1 p) as [N E]; [lra|lra|]. rewrite <- pts_bin in N, E. intros [O|O]; [exact (N O)|].
      assert (E' : even_odd (p_pts (im_poly v (fbox 0 0 80 80))) p = false) by exact O. congruence.
    - intros O. assert (O' : region (p_pts (im_poly v (fbox 40 40 56 56))) p) by exact O. clear O. rename O' into O. rewrite pts_item in O.
      apply rbox_region in O; [|lra|lra]. destruct O as ((O1 & _) & _). cbn [x_min] in O1. lra.
  Qed.
  Lemma fb_infeasible : ~ feasible (im_poly v (fbox 30 30 44 44)) [] fb_facts.
  Proof.
    intros H. refine (H _ (or_intror (or_introl eq_refl)) eq_refl _ (Pt 42 42) _ _); [intros []| |].
    - rewrite pts_over. right. apply (rbox_inside 30 30 44 44 1); simpl; lra.
    - assert (O : region (p_pts (im_poly v (fbox 40 40 56 56))) (Pt 42 42)); [|exact O]. right. rewrite pts_item. apply (rbox_inside 40 40 56 56 1); simpl; lra.
  Qed.
  Lemma fb_verdicts : exists c sn, engine fb_bb fb_st 2 0 fb_ops = Ok (c, sn) /\
    ask c (AskPoly (fbox 8 8 32 32) []) = Ok TFalse /\ ask c (AskPoly (fbox 30 30 44 44) []) <> Ok TFalse.
  Proof.
    destruct fb_engine as (c & sn & E). exists c, sn. split; [exact E|].
    assert (Hp1 : (1 < prec)%Z) by lia. destruct fb_hazards as [HS HO].
    pose proof (float_iff_feasible Hp Hm umax Beqb 0 341 fb_fits (eqb_tells 0 341) Hp1 lin_uniform fb_bb fb_st 2 0 fb_ops c sn fb_box HS HO E LinSearch_ok fb_valid
      fb_framed fb_good fb_active) as T.
    assert (X : exists f0, In f0 fb_facts /\ ent_position (f_ent f0) = Exterior /\ ~ In (f_ent f0) []) by (eexists; split; [left; reflexivity|split; [reflexivity|intros []]]).
    split.
    - apply T; [apply fb_on|apply (fbox_good 4 4 16 16); lia|right; exact X|]. exact fb_feasible.
    - intros H. apply T in H; [exact (fb_infeasible H)|apply fb_on|apply (fbox_good 15 15 22 22); lia|right; exact X].
  Qed.
End Ex.
(** all hypotheses together *)
Lemma fb_hyps : forall (prec emax : Z) (Hp : Prec_gt_0 prec) (Hm : Prec_lt_emax prec emax) (umax : nat), (24 <= prec)%Z -> (prec + 9 < emax)%Z ->
  let N := FloatNum prec emax Hp Hm umax Beqb in
  let fs := map (im_fact B2R) (facts (fb_st Hp Hm umax) (fb_ops Hp Hm umax)) in
  fits (prec := prec) (emax := emax) 0 341 /\ tells_apart (prec := prec) (emax := emax) 0 341 Beqb /\ bsearch_uniform LinSearch /\
  box_on 3 0 341 (fb_bb Hp Hm) /\ Forall (hazard_on 0 341) (fb_st Hp Hm umax) /\ Forall (op_on 0 341) (fb_ops Hp Hm umax) /\
  valid (N := N) (fb_st Hp Hm umax) (fb_ops Hp Hm umax) /\ framed (im_rect B2R (fb_bb Hp Hm)) fs /\ good_facts fs /\ all_active fs /\
  poly_on 0 341 (fbox Hp Hm umax 8 8 32 32) /\ good_shape (im_poly B2R (fbox Hp Hm umax 8 8 32 32)).
Proof.
  intros prec emax Hp Hm umax H24 Hx N fs. split; [apply fb_fits; assumption|]. split; [apply eqb_tells|]. split; [exact lin_uniform|].
  split; [apply fb_box; assumption|]. split; [eapply fb_hazards; eassumption|]. split; [eapply fb_hazards; eassumption|].
  split; [apply fb_valid; assumption|]. split; [apply fb_framed; assumption|]. split; [apply fb_good; assumption|]. split; [apply fb_active|].
  split; [eapply fb_on; eassumption|]. apply (fbox_good Hp Hm umax H24 Hx 4 4 16 16); lia.
Qed.
