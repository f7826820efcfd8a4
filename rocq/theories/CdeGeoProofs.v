(** The engine in exact arithmetic: what its answers say about the plane. *)
From Coq Require Import Reals List Bool Lra Psatz Lia.
From Verif Require Import Base Num GeoModel HazardModel QTModel TransfModel HpgModel CdeModel CdeSpec
  BaseProofs HazVecProofs QTProofs CdeProofs CdeHistProofs CdeThmProofs
  GeoSpec ParityProofs GeoPrimProofs GeoRectProofs PipProofs QTGeoProofs TouchProofs RegionProofs PlaceSpec.
Import ListNotations.
Local Open Scope R_scope.
#[local] Existing Instance RNum.

Section Eng.
  Context {D : Type} {ED : EqD D} {BS : BSearch}.
  Hypothesis BSok : bsearch_ok BS.
  Local Notation fact := (fact R D).
  Local Notation entity := (entity D).

  Lemma sound_wf : forall s, sound_poly s -> wf_poly s.
  Proof. intros s (A & _). apply wf_ring. exact A. Qed.
  Lemma spread_frame : forall (bb : rrect) (s : poly R) pos, boxed s ->
    (pos = Exterior -> bb = inflate_to_square (p_bbox s)) -> spread s pos bb.
  Proof.
    intros bb s pos (Pr & _) H E j Hj. specialize (H E). subst bb.
    destruct (inflate_center _ Pr) as (CX & CY). pose proof (inflate_proper _ Pr) as Pi.
    destruct (quad_i _ j Pi Hj) as (_ & QX & _). rewrite CX in QX. unfold mid_x in QX.
    destruct Pr as (X & Y). destruct QX as [(Q1 & Q2)|(Q1 & Q2)].
    - exists (Pt (x_min (p_bbox s)) (y_min (p_bbox s))). split; [split; simpl; lra|]. intros (K & _). simpl in K. lra.
    - exists (Pt (x_max (p_bbox s)) (y_min (p_bbox s))). split; [split; simpl; lra|]. intros (K & _). simpl in K. lra.
  Qed.

  Section Facts.
    Variable lvl : nat.
    Variable bb : rrect.
    Variable fs : list fact.
    Hypothesis Fr : framed bb fs.
    Hypothesis Sf : sound_facts fs.

    Lemma Pbb : proper bb. Proof. apply Fr. Qed.
    Lemma f_spread : forall f, In f fs -> spread (f_poly f) (ent_position (f_ent f)) bb.
    Proof. intros f Hf. apply spread_frame; [apply Sf; exact Hf|]. apply Fr. exact Hf. Qed.
    Lemma f_gok : forall f, In f fs -> gok (f_poly f) (ent_position (f_ent f)) bb (qth_of_obs f).
    Proof. intros f Hf. apply gok_root; [apply sound_wf, Sf, Hf|reflexivity|reflexivity]. Qed.
    Lemma occ_strict : forall (f : fact) p, ~ on_border (p_pts (f_poly f)) p /\ occupied (ent_position (f_ent f)) (p_pts (f_poly f)) p
      <-> strictly_blocked f p.
    Proof. intros f p. unfold strictly_blocked, occupied, interior, outside. destruct (ent_position (f_ent f)); tauto. Qed.
    Lemma strict_blocked : forall (f : fact) p, strictly_blocked f p -> blocked f p.
    Proof. intros f p. unfold strictly_blocked, blocked, interior, outside, region. destruct (ent_position (f_ent f)); tauto. Qed.
    Lemma not_blocked : forall (f : fact) p, ~ on_border (p_pts (f_poly f)) p -> ~ occupied (ent_position (f_ent f)) (p_pts (f_poly f)) p -> ~ blocked f p.
    Proof. intros f p. unfold blocked, occupied, region. destruct (ent_position (f_ent f)); tauto. Qed.
    Lemma border_blocked : forall (f : fact) p, on_border (p_pts (f_poly f)) p -> blocked f p.
    Proof. intros f p. unfold blocked, region. destruct (ent_position (f_ent f)); tauto. Qed.
    Lemma occ_blocked : forall (f : fact) p, occupied (ent_position (f_ent f)) (p_pts (f_poly f)) p -> blocked f p.
    Proof. intros f p. unfold occupied, blocked, region. destruct (ent_position (f_ent f)); tauto. Qed.

    (** *** boolean queries *)
    Lemma ohits_edge_complete : forall e f g x, In f fs -> In g (ring (p_pts (f_poly f))) ->
      edet e g <> 0 -> on_seg e x -> on_seg g x -> in_rect bb x -> ohits lvl bb (edge_query e) f = true.
    Proof.
      intros e f g x Hf Hg Dt Oe Og Ix. pose proof (sound_wf _ (Sf f Hf)) as W.
      apply in_ring_index in Hg as (i & Hi & ->); [|exact W].
      unfold ohits. eapply (hits_complete (f_poly f) (ent_position (f_ent f)) W (proj2 (Sf f Hf)) lvl bb _ _ i x); auto.
      - apply Pbb.
      - apply f_spread; exact Hf.
      - apply f_gok; exact Hf.
      - intros r Pr Ir. apply re_collides_iff; [exact Pr|]. eauto.
      - apply ee_collides_iff. split; [exists x; auto|exact Dt].
    Qed.
    Lemma ohits_sound : forall q f, In f fs -> ohits lvl bb q f = true ->
      (exists g, In g (ring (p_pts (f_poly f))) /\ qy_edge q g = true) \/
      (exists r, proper r /\ qy_rect q r = true /\ forall p, in_rect r p -> in_rect bb p /\ strictly_blocked f p).
    Proof.
      intros q f Hf H. pose proof (sound_wf _ (Sf f Hf)) as W. unfold ohits in H.
      apply (hits_sound (f_poly f) (ent_position (f_ent f)) W (proj2 (Sf f Hf))) in H;
        [|apply Pbb|apply f_spread; exact Hf|apply f_gok; exact Hf].
      destruct H as [(i & Hi & Q)|(r & Pr & Qr & Hr)].
      - left. exists (edge_at (f_poly f) i). split; [|exact Q]. apply in_ring_index; eauto.
      - right. exists r. split; [exact Pr|]. split; [exact Qr|]. intros p Ip. destruct (Hr p Ip) as (A & B).
        split; [exact A|apply occ_strict; exact B].
    Qed.
    Lemma ohits_edge_sound : forall e f, In f fs -> ohits lvl bb (edge_query e) f = true ->
      exists p, on_seg e p /\ blocked f p.
    Proof.
      intros e f Hf H. destruct (ohits_sound _ f Hf H) as [(g & Hg & Q)|(r & Pr & Qr & Hr)].
      - apply ee_collides_iff in Q as ((p & A & B) & _). exists p. split; [exact A|]. apply border_blocked. exists g. auto.
      - apply re_collides_iff in Qr as (p & A & B); [|exact Pr]. exists p. split; [exact A|]. apply strict_blocked, Hr. exact B.
    Qed.
    Lemma ohits_circle_sound : forall k f, 0 <= crad k -> In f fs -> ohits lvl bb (circle_query k) f = true ->
      exists p, in_disk k p /\ blocked f p.
    Proof.
      intros k f R0 Hf H. destruct (ohits_sound _ f Hf H) as [(g & Hg & Q)|(r & Pr & Qr & Hr)].
      - apply ce_collides_iff in Q as (p & A & B); [|exact R0]. exists p. split; [exact A|]. apply border_blocked. exists g. auto.
      - apply cr_collides_iff in Qr as (p & A & B); [|exact R0|apply proper_nonempty; exact Pr].
        exists p. split; [exact A|]. apply strict_blocked, Hr. exact B.
    Qed.

    (** *** tri-state queries *)
    Lemma otri_true : forall qr f, In f fs -> otri lvl bb qr f = TTrue ->
      exists r, proper r /\ qr r = true /\ forall p, in_rect r p -> in_rect bb p /\ strictly_blocked f p.
    Proof.
      intros qr f Hf H. pose proof (sound_wf _ (Sf f Hf)) as W.
      apply (tri_true (f_poly f) (ent_position (f_ent f)) W (proj2 (Sf f Hf))) in H;
        [|apply Pbb|apply f_spread; exact Hf|apply f_gok; exact Hf].
      destruct H as (r & Pr & Qr & Hr). exists r. split; [exact Pr|]. split; [exact Qr|].
      intros p Ip. destruct (Hr p Ip) as (A & B). split; [exact A|apply occ_strict; exact B].
    Qed.
    Lemma otri_false : forall qr f p, In f fs -> (forall r, proper r -> in_rect r p -> qr r = true) -> in_rect bb p ->
      otri lvl bb qr f = TFalse -> ~ blocked f p.
    Proof.
      intros qr f p Hf Q Ip H. pose proof (sound_wf _ (Sf f Hf)) as W.
      apply (tri_false (f_poly f) (ent_position (f_ent f)) W (proj2 (Sf f Hf))) with (p := p) in H;
        [|exact Q|apply Pbb|apply f_spread; exact Hf|apply f_gok; exact Hf|exact Ip].
      apply not_blocked; apply H.
    Qed.
    Lemma otri_point_true : forall f p, In f fs -> otri lvl bb (fun r => rp_collides r p) f = TTrue -> strictly_blocked f p.
    Proof.
      intros f p Hf H. apply otri_true in H as (r & Pr & Qr & Hr); [|exact Hf]. apply Hr. apply rp_collides_iff. exact Qr.
    Qed.
    Lemma otri_point_false : forall f p, In f fs -> in_rect bb p -> otri lvl bb (fun r => rp_collides r p) f = TFalse -> ~ blocked f p.
    Proof.
      intros f p Hf Ip H. apply (otri_false (fun r => rp_collides r p) f p Hf); [|exact Ip|exact H].
      intros r _ Ir. apply rp_collides_iff. exact Ir.
    Qed.

    (** *** the polygon query *)
    Variable s : poly R.
    Hypothesis Gs : good_shape s.
    Hypothesis Ins : forall p, in_rect (p_bbox s) p -> in_rect bb p.
    Local Notation l := (p_pts s).

    Lemma oedge_true : forall irr, oedge lvl bb s irr fs = true ->
      exists f p, In f fs /\ ~ In (f_ent f) irr /\ on_border l p /\ blocked f p.
    Proof.
      intros irr H. unfold oedge in H. apply existsb_exists in H as (i & Hi & H). apply in_seq in Hi.
      apply existsb_exists in H as (f & Hf & H). apply andb_true_iff in H as (R & H).
      apply ohits_edge_sound in H as (p & A & B); [|exact Hf]. exists f, p. split; [exact Hf|]. split.
      - unfold rel in R. apply negb_true_iff, memb_ent_false in R. exact R.
      - split; [|exact B]. exists (edge_at s i). split; [|exact A]. apply in_ring_index; [apply good_wf; exact Gs|]. exists i. split; [lia|reflexivity].
    Qed.
    (** no edge of the polygon crosses a hazard: the borders do not meet *)
    Lemma oedge_false : forall irr f, oedge lvl bb s irr fs = false -> In f fs -> ~ In (f_ent f) irr -> good_shape (f_poly f) ->
      forall x, on_border l x -> on_border (p_pts (f_poly f)) x -> False.
    Proof.
      intros irr f H Hf Ni Gf x Bl Bf.
      destruct (touch_crossing l (p_pts (f_poly f)) (gs_edges _ Gs) (gs_edges _ Gf) (gs_spikes _ Gs) (gs_spikes _ Gf) x Bl Bf)
        as (e & g & He & Hg & (y & Oy & Oy') & Dt).
      assert (Hit : ohits lvl bb (edge_query e) f = true).
      { apply (ohits_edge_complete e f g y); auto. apply Ins. apply (border_in_box _ l); [apply (gs_box _ Gs)|]. exists e. auto. }
      assert (C : oedge lvl bb s irr fs = true); [|congruence].
      apply in_ring_index in He as (i & Hi & ->); [|apply good_wf; exact Gs].
      unfold oedge. apply existsb_exists. exists i. split; [apply in_seq; lia|]. apply existsb_exists. exists f. split; [exact Hf|].
      rewrite Hit, andb_true_r. unfold rel. apply negb_true_iff, memb_ent_false. exact Ni.
    Qed.

    (** *** containment *)
    Lemma box_centre : forall (t : poly R), good_shape t -> in_rect (p_bbox t) (ccen (p_poi t)).
    Proof.
      intros t G. destruct (gs_poi t G) as (Nb & E).
      destruct (even_odd_box _ _ _ (proj1 (gs_box t G)) Nb E) as (X & Y). split; lra.
    Qed.
    (** a polygon that is not within the contour's box leaves the contour *)
    Lemma sticks_out : forall (f : fact), ent_position (f_ent f) = Exterior -> boxed (f_poly f) ->
      ~ (forall p, in_rect (p_bbox s) p -> in_rect (p_bbox (f_poly f)) p) ->
      exists p, on_border l p /\ blocked f p.
    Proof.
      intros f Ex Bf NS. destruct (gs_box s Gs) as (A & (v1 & I1 & E1) & (v2 & I2 & E2) & (v3 & I3 & E3) & (v4 & I4 & E4)).
      assert (K : forall v, In v l -> ~ in_rect (p_bbox (f_poly f)) v -> exists p, on_border l p /\ blocked f p).
      { intros v Iv N. exists v. split; [apply vertex_border; exact Iv|]. unfold blocked. rewrite Ex.
        right. destruct (even_odd (p_pts (f_poly f)) v) eqn:E; [|reflexivity]. exfalso. apply N.
        destruct (on_border_dec (p_pts (f_poly f)) v) as [B|B].
        - apply (border_in_box _ (p_pts (f_poly f))); [apply Bf|exact B].
        - destruct (even_odd_box _ _ _ (proj2 Bf) B E) as (X & Y). split; lra. }
      set (r := p_bbox (f_poly f)) in *.
      assert (NS' : ~ (x_min r <= x_min (p_bbox s) /\ y_min r <= y_min (p_bbox s) /\ x_max (p_bbox s) <= x_max r /\ y_max (p_bbox s) <= y_max r)).
      { intros H. apply NS. intros p (X & Y). split; lra. }
      destruct (Rle_dec (x_min r) (x_min (p_bbox s))); [|apply (K v1 I1); intros (X & Y); lra].
      destruct (Rle_dec (y_min r) (y_min (p_bbox s))); [|apply (K v3 I3); intros (X & Y); lra].
      destruct (Rle_dec (x_max (p_bbox s)) (x_max r)); [|apply (K v2 I2); intros (X & Y); lra].
      destruct (Rle_dec (y_max (p_bbox s)) (y_max r)); [|apply (K v4 I4); intros (X & Y); lra].
      tauto.
    Qed.
    Lemma ocontained_true : forall f, In f fs -> good_shape (f_poly f) -> ocontained lvl bb s f = true ->
      exists p, region l p /\ blocked f p.
    Proof.
      intros f Hf Gf H. unfold ocontained in H. rewrite almost_relation_exact in H. change (o_poly f) with (f_poly f) in H.
      change (o_ent f) with (f_ent f) in H.
      pose proof (relation_to_ok (p_bbox (f_poly f)) (p_bbox s) (proper_nonempty _ (gs_proper _ Gf)) (proper_nonempty _ (gs_proper _ Gs))) as RR.
      pose proof (gs_poi s Gs) as (Nc & Ec). pose proof (gs_poi _ Gf) as (Nf & Ef).
      destruct (relation_to (p_bbox (f_poly f)) (p_bbox s)) eqn:ER.
      - destruct (ent_position (f_ent f)) eqn:EP; [|discriminate]. destruct RR as (_ & _ & (p & I1 & I2)).
        destruct (sticks_out f EP) as (q & B & C); [apply good_sound; exact Gf|intros K; apply I2, K, I1|].
        exists q. split; [left; exact B|exact C].
      - destruct (ent_position (f_ent f)) eqn:EP.
        + destruct RR as (_ & (p & I1 & I2)).
          destruct (sticks_out f EP) as (q & B & C); [apply good_sound; exact Gf|intros K; apply I2, K, I1|].
          exists q. split; [left; exact B|exact C].
        + exists (ccen (p_poi (f_poly f))). split.
          * destruct (on_border_dec l (ccen (p_poi (f_poly f)))) as [B|B]; [left; exact B|right].
            rewrite pip_pure in H; [exact H|apply good_wf; exact Gs|apply good_sound; exact Gs|exact B].
          * unfold blocked. rewrite EP. right. exact Ef.
      - exists (ccen (p_poi s)). split; [right; exact Ec|].
        destruct (otri lvl bb _ f) eqn:T; [|discriminate|].
        + apply strict_blocked. apply otri_point_true; assumption.
        + destruct (on_border_dec (p_pts (f_poly f)) (ccen (p_poi s))) as [B|B]; [apply border_blocked; exact B|].
          rewrite pip_pure in H; [|apply good_wf; exact Gf|apply good_sound; exact Gf|exact B].
          apply occ_blocked. unfold occupied. destruct (ent_position (f_ent f)).
          -- apply negb_true_iff in H. exact H.
          -- exact H.
      - destruct (ent_position (f_ent f)) eqn:EP; [|discriminate].
        destruct (sticks_out f EP) as (q & B & C); [apply good_sound; exact Gf| |exists q; split; [left; exact B|exact C]].
        intros K. apply RR. exists (ccen (p_poi s)). pose proof (box_centre s Gs). auto.
    Qed.
    Lemma ocontained_false : forall f, In f fs -> good_shape (f_poly f) ->
      (forall x, on_border l x -> on_border (p_pts (f_poly f)) x -> False) -> ocontained lvl bb s f = false ->
      forall p, region l p -> ~ blocked f p.
    Proof.
      intros f Hf Gf Dj H p Rp Bp. unfold ocontained in H. rewrite almost_relation_exact in H. change (o_poly f) with (f_poly f) in H.
      change (o_ent f) with (f_ent f) in H.
      pose proof (relation_to_ok (p_bbox (f_poly f)) (p_bbox s) (proper_nonempty _ (gs_proper _ Gf)) (proper_nonempty _ (gs_proper _ Gs))) as RR.
      assert (Dj' : forall x, on_border (p_pts (f_poly f)) x -> on_border l x -> False) by (intros; eapply Dj; eassumption).
      set (m := p_pts (f_poly f)) in *.
      set (rs := p_bbox s) in *. set (rf := p_bbox (f_poly f)) in *.
      assert (Sub1 : (forall p, in_rect rs p -> in_rect rf p) ->
        x_min rf <= x_min rs /\ y_min rf <= y_min rs /\ x_max rs <= x_max rf /\ y_max rs <= y_max rf)
        by (apply rect_sub, proper_nonempty, gs_proper, Gs).
      assert (Sub2 : (forall p, in_rect rf p -> in_rect rs p) ->
        x_min rs <= x_min rf /\ y_min rs <= y_min rf /\ x_max rf <= x_max rs /\ y_max rf <= y_max rs)
        by (apply rect_sub, proper_nonempty, gs_proper, Gf).
      (* the borders are outside of each other when the boxes are not nested *)
      assert (OUT1 : ~ (forall p, in_rect rf p -> in_rect rs p) -> forall x, on_border m x -> even_odd l x = false).
      { intros N x Bx. destruct (even_odd l x) eqn:E; [|reflexivity]. exfalso. apply N.
        pose proof (nested_boxes l m Dj rs rf x (gs_box _ Gs) (gs_box _ Gf) Bx E). intros q (X & Y). split; lra. }
      assert (OUT2 : ~ (forall p, in_rect rs p -> in_rect rf p) -> forall x, on_border l x -> even_odd m x = false).
      { intros N x Bx. destruct (even_odd m x) eqn:E; [|reflexivity]. exfalso. apply N.
        pose proof (nested_boxes m l Dj' rf rs x (gs_box _ Gf) (gs_box _ Gs) Bx E). intros q (X & Y). split; lra. }
      destruct (relation_to rf rs) eqn:ER.
      - destruct (ent_position (f_ent f)) eqn:EP; [discriminate|]. destruct RR as (_ & (q & Q1 & Q2) & (q' & Q1' & Q2')).
        unfold blocked in Bp. rewrite EP in Bp.
        refine (apart l m Dj _ _ p Rp Bp); [apply OUT1; intros K; apply Q2, K, Q1|apply OUT2; intros K; apply Q2', K, Q1'].
      - destruct RR as (SubR & (q & Q1 & Q2)).
        destruct (centre_decides m l rf rs (ccen (p_poi (f_poly f))) Dj' (gs_box _ Gf) (gs_box _ Gs) (gs_poi _ Gf)) as (C1 & C2 & C3).
        { intros K. pose proof (Sub2 SubR). lra. }
        rewrite pip_pure in H; [|apply good_wf; exact Gs|apply good_sound; exact Gs|exact C1].
        unfold blocked in Bp. destruct (ent_position (f_ent f)) eqn:EP.
        + (* the polygon surrounds the bin: its box does not fit the frame *)
          apply negb_false_iff in H.
          assert (V : exists v, on_border m v).
          { destruct (gs_box _ Gf) as (_ & (v & Iv & _) & _). exists v. apply vertex_border. exact Iv. }
          destruct V as (v & Bv).
          pose proof (nested_boxes l m Dj rs rf v (gs_box _ Gs) (gs_box _ Gf) Bv ltac:(rewrite C3 by exact Bv; exact H)) as NB.
          assert (Eb : bb = inflate_to_square rf) by (apply Fr; assumption).
          assert (Fit : in_rect bb (Pt (x_min rs) (y_min rs))).
          { apply Ins. destruct (gs_proper _ Gs). fold rs in H0, H1. split; simpl; fold rs; lra. }
          rewrite Eb in Fit. unfold inflate_to_square in Fit. unr.
          rdestr (y_max rf - y_min rf) (x_max rf - x_min rf);
            [|rdestr (x_max rf - x_min rf) (y_max rf - y_min rf)]; destruct Fit as (FX & FY); simpl in FX, FY; lra.
        + refine (apart l m Dj _ C2 p Rp Bp). intros x Bx. rewrite C3 by exact Bx. exact H.
      - destruct (centre_decides l m rs rf (ccen (p_poi s)) Dj (gs_box _ Gs) (gs_box _ Gf) (gs_poi _ Gs)) as (C1 & C2 & C3).
        { intros K. pose proof (Sub1 RR). lra. }
        assert (Ic : in_rect bb (ccen (p_poi s))) by (apply Ins, box_centre, Gs).
        assert (NB : ~ blocked f (ccen (p_poi s))).
        { destruct (otri lvl bb _ f) eqn:T; [discriminate|apply otri_point_false; assumption|].
          rewrite pip_pure in H; [|apply good_wf; exact Gf|apply good_sound; exact Gf|exact C1].
          apply not_blocked; [exact C1|]. unfold occupied. fold m. destruct (ent_position (f_ent f)).
          - apply negb_false_iff in H. fold m in H. congruence.
          - fold m in H. congruence. }
        unfold blocked in NB, Bp. fold m in NB, Bp. destruct (ent_position (f_ent f)) eqn:EP.
        + assert (Ec : even_odd m (ccen (p_poi s)) = true) by (destruct (even_odd m (ccen (p_poi s))); tauto).
          destruct (within l m Dj) with (p := p) as (W1 & W2); auto.
          * intros x Bx. rewrite C3 by exact Bx. exact Ec.
          * destruct Bp as [B|B]; [contradiction|congruence].
        + assert (Ec : even_odd m (ccen (p_poi s)) = false).
          { destruct (even_odd m (ccen (p_poi s))) eqn:E; [|reflexivity]. exfalso. apply NB. right. exact E. }
          refine (apart l m Dj C2 _ p Rp Bp). intros x Bx. rewrite C3 by exact Bx. exact Ec.
      - destruct (ent_position (f_ent f)) eqn:EP; [discriminate|].
        unfold blocked in Bp. rewrite EP in Bp.
        refine (apart l m Dj _ _ p Rp Bp); [apply OUT1|apply OUT2]; intros K; apply RR;
          [exists (ccen (p_poi (f_poly f)))|exists (ccen (p_poi s))]; pose proof (box_centre s Gs); pose proof (box_centre _ Gf); auto.
    Qed.

    Lemma opoly_in : forall irr, opoly lvl bb s irr fs = oedge lvl bb s irr fs || ocontain lvl bb s irr fs.
    Proof.
      intros irr. unfold opoly.
      pose proof (relation_to_ok bb (p_bbox s) (proper_nonempty _ Pbb) (proper_nonempty _ (gs_proper _ Gs))) as RR.
      pose proof (box_centre s Gs) as Bc.
      destruct (relation_to bb (p_bbox s)) eqn:E; [| |reflexivity|].
      - exfalso. destruct RR as (_ & _ & (p & A & B)). apply B, Ins, A.
      - exfalso. destruct RR as (_ & (p & A & B)). apply B, Ins, A.
      - exfalso. apply RR. exists (ccen (p_poi s)). auto.
    Qed.
    Lemma opoly_false : forall irr, good_facts fs -> opoly lvl bb s irr fs = false -> feasible s irr fs.
    Proof.
      intros irr Gf H f Hf Af Ni. rewrite opoly_in in H. apply orb_false_iff in H as (H1 & H2).
      apply ocontained_false; [exact Hf|apply Gf; exact Hf|apply (oedge_false irr); auto|].
      destruct (ocontained lvl bb s f) eqn:E; [|reflexivity]. exfalso.
      assert (X : ocontain lvl bb s irr fs = true); [|congruence].
      unfold ocontain. apply existsb_exists. exists f. split; [exact Hf|]. rewrite E, andb_true_r. apply andb_true_iff.
      split; [exact Af|]. unfold rel. apply negb_true_iff, memb_ent_false. exact Ni.
    Qed.
    Lemma opoly_true : forall irr, good_facts fs -> opoly lvl bb s irr fs = true ->
      exists f p, In f fs /\ ~ In (f_ent f) irr /\ region l p /\ blocked f p.
    Proof.
      intros irr Gf H. rewrite opoly_in in H. apply orb_true_iff in H as [H|H].
      - apply oedge_true in H as (f & p & A & B & C & E). exists f, p. split; [exact A|]. split; [exact B|]. split; [left; exact C|exact E].
      - unfold ocontain in H. apply existsb_exists in H as (f & Hf & H). apply andb_true_iff in H as (H & C).
        apply andb_true_iff in H as (_ & R). apply ocontained_true in C as (p & A & B); [|exact Hf|apply Gf; exact Hf].
        exists f, p. split; [exact Hf|]. split; [|auto]. unfold rel in R. apply negb_true_iff, memb_ent_false in R. exact R.
    Qed.
  End Facts.
End Eng.
