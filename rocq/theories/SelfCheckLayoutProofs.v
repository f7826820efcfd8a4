(** [layout_is_collision_free] and [item_to_place_does_not_collide] with exact arithmetic. *)
From Coq Require Import List Bool Arith ZArith Lia Permutation.
From Verif Require Import Base Num GeoModel HazardModel QTModel TransfModel HpgModel CdeModel CdeSpec
  PolyModel SlotMapModel LayoutModel ProblemModel ProblemSpec LbfModel AssertModel AssertSpec AssertLayoutModel BaseProofs HazVecProofs QTProofs CdeProofs CdeOpsProofs CdeHistProofs CdeThmProofs SlotMapProofs ProblemProofs
  ProblemOpsProofs ProblemThmProofs LayoutProofs MirrorProofs Instances RigidProofs XformProofs RegionProofs GeoPrimProofs GeoRectProofs QTGeoProofs CdeGeoProofs CdeGeoThmProofs AssertProofs LbfSpec LbfProofs LbfRunProofs LbfSpProofs.
From Coq Require Import Reals Lra.
From Verif Require Import GeoModel HazardModel QTModel TransfModel HpgModel CdeModel CdeSpec GeoSpec PlaceSpec ShapeSpec LbfModel LbfSpec AssertModel AssertLayoutModel SelfCheckLayoutSpec.
Import ListNotations.
Local Open Scope R_scope.

Section L.
  Variable M : R.
  #[local] Instance NSC : Num R := RNumT Reqb M.
  #[local] Existing Instance RTrig.
  Context {ED : EqD (dtransf R)} {BS : BSearch}.
  Hypothesis BSok : bsearch_ok BS.
  Local Notation dtransf := (dtransf R).
  Local Notation layout := (layout R dtransf).
  Local Notation pitem := (pitem R dtransf).
  Local Notation fact := (fact R dtransf).
  Variable cat : nat -> poly R.

  Section One.
  Variable l : layout.
  Hypothesis L : LI cat l.
  Hypothesis Gb : bin_fine (ly_bin l).
  Hypothesis Gc : forall p, In p (sm_values (ly_items l)) -> good_shape (cat (pi_item p)).
  Local Notation pis := (sm_values (ly_items l)).
  Local Notation depth := (cfg_depth (bn_cfg (ly_bin l))).
  Local Notation bb := (bin_box (ly_bin l)).
  Definition lf : list fact := map fact_of (bin_statics (ly_bin l)) ++ map pfact pis.

  Lemma pi_good : forall p, In p pis -> good_shape (a_obj (pi_shape p)).
  Proof.
    intros p Hp. destruct L as (_ & (_ & S2 & _) & _). rewrite Forall_forall in S2. destruct (S2 p Hp) as (E & _). rewrite E.
    exact (good_tr_poly (compose (pi_dt p)) (cat (pi_item p)) (rigid_compose (pi_dt p)) (Gc p Hp)).
  Qed.
  Lemma lf_good : good_facts lf.
  Proof.
    intros f Hf. unfold lf in Hf. apply in_app_or in Hf as [Hf|Hf]; apply in_map_iff in Hf as (h & <- & Hh).
    - unfold bin_fine in Gb. rewrite Forall_forall in Gb. apply (Gb h Hh).
    - exact (pi_good h Hh).
  Qed.
  Lemma lf_sound : sound_facts lf.
  Proof. intros f Hf. apply good_sound, lf_good, Hf. Qed.
  Lemma static_active : forall h, In h (bin_statics (ly_bin l)) -> h_active h = true.
  Proof.
    intros h Hh. unfold bin_statics, bin_hazards in Hh. destruct Hh as [<-|Hh]; [reflexivity|]. apply in_app_or in Hh as [Hh|Hh].
    - apply in_map_iff in Hh as (x & <- & _). reflexivity.
    - apply in_flat_map in Hh as (z & _ & Hh). apply in_map_iff in Hh as (x & <- & _). reflexivity.
  Qed.
  Lemma lf_active : all_active lf.
  Proof.
    intros f Hf. unfold lf in Hf. apply in_app_or in Hf as [Hf|Hf]; apply in_map_iff in Hf as (h & <- & Hh); [exact (static_active h Hh)|reflexivity].
  Qed.
  Lemma lf_framed : framed bb lf.
  Proof.
    split.
    - assert (G : good_shape (a_obj (bn_outer (ly_bin l)))).
      { unfold bin_fine in Gb. rewrite Forall_forall in Gb. apply (Gb (hazard_new BinExterior (bn_outer (ly_bin l)))). left. reflexivity. }
      exact (inflate_proper _ (gs_proper _ G)).
    - intros f Hf E. unfold lf in Hf. apply in_app_or in Hf as [Hf|Hf]; apply in_map_iff in Hf as (h & <- & Hh).
      + cbn in E. rewrite (exterior_static _ _ Hh E). reflexivity.
      + discriminate.
  Qed.
  Lemma lf_ask : forall q, good_question q -> ask (ly_cde l) q = Ok (answer depth bb lf q).
  Proof.
    intros q G. destruct L as (Gd & Fi & Rl). rewrite (ask_answer _ _ _ q (rl_inv _ _ _ _ _ _ _ Rl) G). f_equal. apply answer_perm.
    - pose proof (inv_nodup_all _ _ _ (rl_inv _ _ _ _ _ _ _ Rl)) as X. unfold registered. rewrite map_map. exact X.
    - exact (related_registered _ _ _ _ _ _ _ Rl).
  Qed.
  Lemma all_ents : forall e, In e (map (@h_ent R dtransf) (all_hazards (ly_cde l))) <-> In e (map f_ent lf).
  Proof.
    intros e. destruct L as (Gd & Fi & Rl). pose proof (related_registered _ _ _ _ _ _ _ Rl) as P. apply (Permutation_map o_ent) in P.
    unfold registered in P. rewrite map_map in P. split; apply Permutation_in; [exact P|symmetry; exact P].
  Qed.
  Lemma exterior_in : In (fact_of (hazard_new (D := dtransf) BinExterior (bn_outer (ly_bin l)))) lf.
  Proof. unfold lf. apply in_or_app. left. left. reflexivity. Qed.

  (** the polygon query, in release and debug builds *)
  Lemma decides : forall s irr, good_shape s -> ~ In BinExterior irr ->
    exists b, poly_collides_d (ly_cde l) s irr = Ok b /\ (b = false <-> feasible s irr lf).
  Proof.
    intros s irr Gs Ne. pose proof (lf_ask (AskPoly s irr) (good_wf _ Gs)) as A. cbn [answer ask] in A.
    pose proof L as (_ & _ & Rl). rewrite (poly_d_ok _ _ _ _ (inv_repr _ _ _ (rl_inv _ _ _ _ _ _ _ Rl))).
    destruct (poly_collides (ly_cde l) s irr) as [b|] eqn:Ec; [|discriminate]. cbn [rbind] in A. injection A as A. exists b. split; [reflexivity|].
    assert (Eb : b = opoly depth bb s irr lf) by (destruct b, (opoly depth bb s irr lf); try reflexivity; discriminate). clear A Ec. subst b.
    pose proof lf_framed as Fr. pose proof lf_good as Gf. pose proof lf_sound as Sf. split.
    - intros H. refine (opoly_false depth bb lf Fr Sf s Gs _ irr Gf H).
      pose proof (relation_to_ok bb (p_bbox s) (proper_nonempty _ (proj1 Fr)) (proper_nonempty _ (gs_proper _ Gs))) as RR.
      unfold opoly in H.
      match type of H with context [relation_to ?a ?b] => change (relation_to a b) with (relation_to (N := RNum) bb (p_bbox s)) in H end.
      destruct (relation_to _ _) in RR, H; try discriminate. exact RR.
    - intros Fe. destruct (opoly depth bb s irr lf) eqn:Eo; [exfalso|reflexivity].
      pose proof exterior_in as H0. assert (Go : good_shape (a_obj (bn_outer (ly_bin l)))) by exact (Gf _ H0).
      assert (Ins : box_inside bb s).
      { assert (V : forall v, In v (p_pts s) -> in_open_rect (p_bbox (a_obj (bn_outer (ly_bin l)))) v).
        { intros v Hv. apply even_odd_outer; [exact Go|]. apply (Fe _ H0 eq_refl); [exact Ne|]. left. apply vertex_border. exact Hv. }
        intros p Hp. apply (inflate_sub (p_bbox (a_obj (bn_outer (ly_bin l))))); [|apply proper_nonempty, (gs_proper _ Go)].
        destruct (gs_box _ Gs) as (_ & (v1 & I1 & E1) & (v2 & I2 & E2) & (v3 & I3 & E3) & (v4 & I4 & E4)).
        apply V in I1, I2, I3, I4. unfold in_rect, in_open_rect in *. lra. }
      destruct (opoly_true depth bb lf Fr Sf s Gs Ins irr Gf Eo) as (f & p & Hf & Ni & Rp & Bl).
      exact (Fe f Hf (lf_active f Hf) Ni p Rp Bl).
  Qed.
  (** a surrogate that lies in the shape is rejected only if the shape is *)
  Lemma surr_sound : forall s u t irr, good_shape s -> rigid t -> surrogate_inside s u ->
    exists b, surrogate_collides_d (ly_cde l) u t irr = Ok b /\ (b = true -> ~ feasible (tr_poly t s) irr lf).
  Proof.
    intros s u t irr Gs Rg (Nf & Sp & Si). pose proof (lf_ask (AskSurrogate u t irr) Nf) as A. cbn [answer ask] in A.
    pose proof L as (_ & _ & Rl). rewrite (surr_d_ok _ _ _ _ (inv_repr _ _ _ (rl_inv _ _ _ _ _ _ _ Rl))).
    destruct (surrogate_collides (ly_cde l) u t irr) as [b|] eqn:Ec; [|discriminate]. cbn [rbind] in A. injection A as A. exists b. split; [reflexivity|].
    assert (Eb : b = osurr depth bb u t irr lf) by (destruct b, (osurr depth bb u t irr lf); try reflexivity; discriminate). clear A Ec. subst b.
    intros Es Fe. pose proof lf_framed as Fr. pose proof lf_sound as Sf.
    assert (K : forall f p, In f lf -> rel irr f = true -> region (p_pts s) p -> blocked f (tr_point t p) -> False).
    { intros f p Hf Rl' Rp Bl. apply rel_in in Rl'. apply (Fe f Hf (lf_active f Hf) Rl' (tr_point t p)); [|exact Bl].
      apply region_moved; assumption. }
    unfold osurr in Es.
    apply orb_true_iff in Es as [Es|Es]; apply existsb_exists in Es as (k & Hk & Es);
      apply existsb_exists in Es as (f & Hf & Es); apply andb_true_iff in Es as (Rl' & Es).
    - destruct (Sp k Hk) as (R0 & Dk). apply (ohits_circle_sound depth bb lf Fr Sf) in Es as (q & A & B); [|exact R0|exact Hf].
      destruct (disk_moved t k q Rg A) as (p & -> & Ip). apply (K f p); auto.
    - apply (ohits_edge_sound depth bb lf Fr Sf) in Es as (q & A & B); [|exact Hf].
      destruct (segment_moved t k q Rg A) as (p & -> & Ip). apply (K f p); auto. apply (Si k Hk p Ip).
  Qed.

  Lemma item_fits_ok : forall it u t, good_shape (it_shape it) -> rigid t -> p_surr (it_shape it) = Some u -> surrogate_inside (it_shape it) u ->
    exists b, item_fits it t l = Ok b /\ (b = true <-> fits it t l).
  Proof.
    intros it u t Gs Rg Eu Si.
    set (irr := match it_quality it with None => [] | Some q => generate_irrelevant (qz_filter q) (all_hazards (ly_cde l)) end).
    assert (Irr : forall e, In e irr <-> In e (map f_ent lf) /\ tolerates (it_quality it) e)
      by (intros e; unfold irr; rewrite <- all_ents; apply (item_irrelevant_spec (it_quality it) (all_hazards (ly_cde l)) e)).
    assert (Ne : ~ In BinExterior irr) by (intros X; apply Irr in X as (_ & k & i & X & _); discriminate).
    assert (Eq : feasible (tr_poly t (it_shape it)) irr lf <-> fits it t l).
    { unfold fits, free_of_bin. split.
      - intros Fe. split.
        + intros p x Hp Rx Px. refine (Fe (pfact p) _ eq_refl _ x Rx Px).
          * unfold lf. apply in_or_app. right. apply in_map. exact Hp.
          * intros X. apply Irr in X as (_ & k & i & X & _). discriminate.
        + intros h x Hh Nt Rx. refine (Fe (fact_of h) _ (static_active h Hh) _ x Rx).
          * unfold lf. apply in_or_app. left. apply in_map. exact Hh.
          * intros X. apply Irr in X as (_ & X). contradiction.
      - intros (F1 & F2) f Hf _ Ni x Rx. unfold lf in Hf. pose proof Hf as Hf0. apply in_app_or in Hf as [Hf|Hf]; apply in_map_iff in Hf as (h & <- & Hh).
        + apply (F2 h x Hh); [|exact Rx]. intros X. apply Ni. apply Irr. split; [|exact X]. apply (in_map f_ent) in Hf0. exact Hf0.
        + intros Bl. exact (F1 h x Hh Rx Bl). }
    destruct (surr_sound _ u t irr Gs Rg Si) as (b1 & E1 & H1).
    destruct (decides _ irr (good_tr_poly t _ Rg Gs) Ne) as (b2 & E2 & H2).
    assert (E2' : poly_collides_d (ly_cde l) (tr_poly t (it_shape it)) irr = Ok b2) by exact E2. clear E2.
    unfold item_fits. fold irr. rewrite Eu. cbn [expect rbind]. rewrite E1. cbn [rbind].
    destruct b1.
    - exists false. split; [reflexivity|]. split; [discriminate|]. intros Fi. apply Eq in Fi. destruct (H1 eq_refl Fi).
    - rewrite E2'. cbn [rbind]. exists (negb b2). split; [reflexivity|]. rewrite negb_true_iff, H2. exact Eq.
  Qed.

  Lemma entity_once : forall p p', In p pis -> In p' pis -> pi_entity p = pi_entity p' -> p = p'.
  Proof.
    destruct L as (_ & (_ & _ & ND) & _). revert ND. generalize pis. intros xs. induction xs as [|a xs IH]; intros ND p p' Hp Hp' E; [destruct Hp|].
    cbn [map] in ND. inversion ND as [|? ? Na ND']; subst. destruct Hp as [<-|Hp], Hp' as [<-|Hp']; auto; exfalso; apply Na.
    - rewrite E. apply in_map, Hp'.
    - rewrite <- E. apply in_map, Hp.
  Qed.
  Lemma ignores_spec : forall p, In p pis -> forall e, In e (item_ignores l p) <-> In e (map f_ent lf) /\ (e = pi_entity p \/ tolerates (pi_filter p) e).
  Proof.
    intros p Hp e. rewrite <- all_ents. unfold item_ignores. rewrite irrelevant_spec.
    assert (X : combined_filter match pi_filter p with None => [entity_filter [pi_entity p]] | Some q => [entity_filter [pi_entity p]; qz_filter q] end e = true <->
                e = pi_entity p \/ tolerates (pi_filter p) e); [|rewrite X; reflexivity].
    unfold combined_filter. rewrite existsb_exists. split.
    - intros (f & Hf & H).
      assert (C : f = entity_filter [pi_entity p] \/ exists q, pi_filter p = Some q /\ f = qz_filter q).
      { destruct (pi_filter p) as [q|]; cbn in Hf; destruct Hf as [<-|Hf]; auto; [|destruct Hf]. destruct Hf as [<-|[]]. right. eauto. }
      destruct C as [->|(q & Eq & ->)].
      + left. unfold entity_filter in H. apply memb_ent in H. destruct H as [<-|[]]. reflexivity.
      + right. unfold tolerates. rewrite Eq. unfold qz_filter in H. destruct e as [| | |k i]; try discriminate. exists k, i. split; [reflexivity|]. apply Nat.leb_le. exact H.
    - intros [->|(k & i & -> & H)].
      + exists (entity_filter [pi_entity p]). split; [destruct (pi_filter p); left; reflexivity|]. unfold entity_filter. apply memb_ent. left. reflexivity.
      + destruct (pi_filter p) as [q|]; [|destruct H]. exists (qz_filter q). split; [right; left; reflexivity|]. apply Nat.leb_le. exact H.
  Qed.
  Lemma collision_free_ok : exists b, collision_free l = Ok b /\ (b = true <-> no_collisions l).
  Proof.
    assert (Each : forall p, In p pis -> exists b, poly_collides_d (ly_cde l) (a_obj (pi_shape p)) (item_ignores l p) = Ok b /\
      (b = false <-> (forall p' x, In p' pis -> on_item p x -> on_item p' x -> p = p') /\ free_of_bin l (pi_filter p) (on_item p))).
    { intros p Hp.
      assert (Ne : ~ In BinExterior (item_ignores l p)).
      { intros X. apply (ignores_spec p Hp) in X as (_ & [X|(k & i & X & _)]); discriminate. }
      destruct (decides _ _ (pi_good p Hp) Ne) as (b & Eb & Hb). exists b. split; [exact Eb|]. rewrite Hb. clear b Eb Hb. split.
      - intros Fe. split.
        + intros p' x Hp' Rx Px. destruct (ent_eqb (pi_entity p') (pi_entity p)) eqn:En.
          * apply ent_eqb_ok in En. apply entity_once; auto.
          * apply ent_eqb_false in En. exfalso. refine (Fe (pfact p') _ eq_refl _ x Rx Px).
            -- unfold lf. apply in_or_app. right. apply in_map. exact Hp'.
            -- intros X. apply (ignores_spec p Hp) in X as (_ & [X|(k & i & X & _)]); [exact (En X)|discriminate].
        + intros h x Hh Nt Rx. refine (Fe (fact_of h) _ (static_active h Hh) _ x Rx).
          * unfold lf. apply in_or_app. left. apply in_map. exact Hh.
          * intros X. apply (ignores_spec p Hp) in X as (_ & [X|X]); [|contradiction].
            apply (bin_not_placed (ly_bin l) (h_ent h)); [apply in_map; exact Hh|]. change (h_ent h = pi_entity p) in X. rewrite X. exact I.
      - intros (F1 & F2) f Hf _ Ni x Rx. pose proof Hf as Hf0. unfold lf in Hf. apply in_app_or in Hf as [Hf|Hf]; apply in_map_iff in Hf as (h & <- & Hh).
        + apply (F2 h x Hh); [|exact Rx]. intros X. apply Ni. apply (ignores_spec p Hp). split; [|right; exact X]. apply (in_map f_ent) in Hf0. exact Hf0.
        + intros Bl. assert (E : p = h) by (apply (F1 h x Hh Rx Bl)). subst h. apply Ni. apply (ignores_spec p Hp). split; [|left; reflexivity].
          apply (in_map f_ent) in Hf0. exact Hf0. }
    assert (All : forall ps, incl ps pis -> exists b, rany (fun p => poly_collides_d (ly_cde l) (a_obj (pi_shape p)) (item_ignores l p)) ps = Ok b /\
      (b = false <-> forall p, In p ps -> (forall p' x, In p' pis -> on_item p x -> on_item p' x -> p = p') /\ free_of_bin l (pi_filter p) (on_item p))).
    { induction ps as [|p ps IH]; intros Inc.
      - exists false. split; [reflexivity|]. split; [intros _ p []|reflexivity].
      - destruct (Each p (Inc p (or_introl eq_refl))) as (b & Eb & Hb). destruct IH as (b' & Eb' & Hb'); [intros x Hx; apply Inc; right; exact Hx|].
        cbn [rany]. rewrite Eb. cbn [rbind]. destruct b.
        + exists true. split; [reflexivity|]. split; [discriminate|]. intros H. destruct Hb as (_ & Hb). specialize (Hb (H p (or_introl eq_refl))). discriminate.
        + exists b'. split; [exact Eb'|]. rewrite Hb'. split.
          * intros H q [<-|Hq]; [apply Hb; reflexivity|apply H; exact Hq].
          * intros H q Hq. apply H. right. exact Hq. }
    destruct (All pis (fun x Hx => Hx)) as (b & Eb & Hb). unfold collision_free. rewrite Eb. exists (negb b). split; [reflexivity|].
    rewrite negb_true_iff, Hb. unfold no_collisions. split.
    - intros H. split; [intros p p' x Hp Hp' A B; exact (proj1 (H p Hp) p' x Hp' A B)|intros p Hp; apply (H p Hp)].
    - intros (H1 & H2) p Hp. split; [intros p' x Hp' A B; eapply H1; eassumption|apply H2; exact Hp].
  Qed.
  End One.

  (** *** layouts that histories reach *)
  Lemma history_checks : forall id b (ops : list (lop R dtransf)) (l : layout) sn, good_bin b -> lops_ok cat (layout_new id b, []) ops ->
    rfold lstep ops (layout_new id b, []) = Ok (l, sn) -> Forall (fun h => good_shape (a_obj (h_shape h))) (bin_statics (ly_bin l)) ->
    (forall p, In p (sm_values (ly_items l)) -> good_shape (cat (pi_item p))) ->
    (exists r, collision_free l = Ok r /\ (r = true <-> no_collisions l)) /\
    (forall it u t, good_shape (it_shape it) -> rigid t -> p_surr (it_shape it) = Some u -> surrogate_inside (it_shape it) u ->
       exists r, item_fits it t l = Ok r /\ (r = true <-> fits it t l)).
  Proof.
    intros id b ops l sn Gd V E Gb Gc.
    assert (L : LI cat l) by apply (lrun_LI BSok cat ops _ [] l sn (new_LI BSok cat id b Gd) (Forall_nil _) V E).
    split; [exact (collision_free_ok l L Gb Gc)|]. intros it u t. exact (item_fits_ok l L Gb Gc it u t).
  Qed.
End L.
