(** Runs of the reference optimizer on strip packing instances. *)
From Coq Require Import List Bool Arith ZArith Lia Permutation.
From Verif Require Import Base Num GeoModel HazardModel QTModel TransfModel HpgModel CdeModel CdeSpec
  PolyModel SlotMapModel LayoutModel ProblemModel ProblemSpec LbfModel BaseProofs HazVecProofs QTProofs CdeProofs CdeOpsProofs CdeHistProofs SlotMapProofs ProblemProofs
  ProblemOpsProofs ProblemThmProofs StripProofs LayoutProofs MirrorProofs MirrorThmProofs FitProofs Instances HullProofs RigidProofs RegionProofs GeoPrimProofs GeoRectProofs ParityProofs PipProofs
  CdeGeoProofs CdeGeoThmProofs NormProofs ConstructProofs PlaceExampleProofs RectPolyProofs LbfSpec LbfProofs LbfRunProofs LbfBpProofs.
From Coq Require Import Reals Lra.
From Verif Require Import GeoModel HazardModel QTModel TransfModel HpgModel CdeModel CdeSpec GeoSpec PlaceSpec ShapeSpec LbfModel LbfSpec.
Import ListNotations.
Local Open Scope R_scope.

Section S.
  Variable M : R.
  #[local] Instance NLS : Num R := RNumT Reqb M.
  #[local] Existing Instance RTrig.
  Context {ED : EqD (dtransf R)} {BS : BSearch} {G : Type} {RG : Rng R G} {X : Extra R}.
  Local Notation dtransf := (dtransf R).
  Local Notation layout := (layout R dtransf).
  Local Notation popt := (popt dtransf).
  Local Notation sp := (sp R dtransf).
  Local Notation solution := (solution R dtransf).
  Local Notation bin := (bin R dtransf).

  Lemma strip_poly : forall r c ptr (b : bin), bin_from_strip r c ptr = Ok b ->
    poly_of_rect (N := RNum) r = Ok (a_obj (bn_outer b)) /\ bin_statics b = [hazard_new BinExterior (bn_outer b)].
  Proof.
    intros r c ptr b H. unfold bin_from_strip in H. apply rbind_ok in H as (s & Es & H).
    assert (Es' : poly_of_rect (N := RNum) r = Ok s) by (unfold poly_of_rect in *; rewrite <- (poly_new_M M); exact Es).
    apply bin_new_spec in H as (_ & Eo & Eh & _ & Ez & _). rewrite Eo. split; [exact Es'|]. unfold bin_statics. rewrite Eo, Eh, Ez. reflexivity.
  Qed.
  Lemma strip_fine : forall r c ptr (b : bin), bin_from_strip r c ptr = Ok b -> bin_fine b.
  Proof.
    intros r c ptr b H. apply strip_poly in H as (Es & E). unfold bin_fine. rewrite E. constructor; [|constructor]. cbn. eapply rect_good. exact Es.
  Qed.
  Lemma strip_box : forall r c ptr (b : bin), bin_from_strip r c ptr = Ok b -> proper r -> p_bbox (a_obj (bn_outer b)) = r.
  Proof.
    intros r c ptr b H (A & B). apply strip_poly in H as (Es & _). rewrite (rect_bbox _ _ Es), !Rmin_left, !Rmax_right by lra. destruct r; reflexivity.
  Qed.

  (** *** acceptance, from feasibility *)
  Hypothesis BSok : bsearch_ok BS.
  Lemma even_odd_outer : forall (b : bin) p, good_shape (a_obj (bn_outer b)) ->
    ~ blocked (fact_of (hazard_new (D := dtransf) BinExterior (bn_outer b))) p -> interior (p_pts (a_obj (bn_outer b))) p /\ in_open_rect (p_bbox (a_obj (bn_outer b))) p.
  Proof.
    intros b p Gs Nb. unfold blocked in Nb. cbn in Nb.
    assert (I : interior (p_pts (a_obj (bn_outer b))) p).
    { split; [intros O; apply Nb; left; exact O|]. destruct (even_odd (p_pts (a_obj (bn_outer b))) p) eqn:E; [reflexivity|]. exfalso. apply Nb. right. reflexivity. }
    split; [exact I|]. destruct I as (N1 & N2). eapply even_odd_box; [exact (proj1 (gs_box _ Gs))|exact N1|exact N2].
  Qed.
  Lemma vertex_border : forall l v, In v l -> on_border l v.
  Proof.
    intros [|a r] v H; [destruct H|]. unfold on_border, ring.
    assert (K : forall r f a v, v = a \/ In v r -> exists e, In e (path_edges f a r) /\ on_seg e v).
    { clear. induction r as [|b r IH]; intros f a v [->|H]; cbn [path_edges].
      - exists (Ed a f). split; [left; reflexivity|]. exists 0. split; [lra|]. destruct a. unfold at_t; cbn; f_equal; ring.
      - destruct H.
      - exists (Ed a b). split; [left; reflexivity|]. exists 0. split; [lra|]. destruct a. unfold at_t; cbn; f_equal; ring.
      - destruct (IH f b v) as (e & He & O); [destruct H; auto|]. exists e. split; [right; exact He|exact O]. }
    apply K. destruct H; auto.
  Qed.
  Lemma feasible_passes : forall items (l : layout) s, fine_items items -> LI (item_shape items) l -> bin_fine (ly_bin l) -> known items l ->
    good_shape s -> feasible s [] (l_facts M items l) -> ask (ly_cde l) (AskPoly s []) = Ok TFalse.
  Proof.
    intros items l s Gi L Gb K Gs Fe.
    assert (A : ask (ly_cde l) (AskPoly s []) = Ok (answer (cfg_depth (bn_cfg (ly_bin l))) (bin_box (ly_bin l)) (l_facts M items l) (AskPoly s [])))
      by (apply (l_ask M items l s [] L); exact (good_wf _ Gs)).
    rewrite A. cbn [answer]. f_equal. pose proof (l_framed M items l Gb) as Fr. pose proof (l_good M items Gi l Gb K) as Gf.
    destruct (opoly (cfg_depth (bn_cfg (ly_bin l))) (bin_box (ly_bin l)) s [] (l_facts M items l)) eqn:Eo; [exfalso|reflexivity].
    set (f0 := fact_of (hazard_new (D := dtransf) BinExterior (bn_outer (ly_bin l)))).
    assert (H0 : In f0 (l_facts M items l)) by (apply in_or_app; left; left; reflexivity).
    assert (Go : good_shape (a_obj (bn_outer (ly_bin l)))) by exact (Gf f0 H0).
    assert (Ins : box_inside (bin_box (ly_bin l)) s).
    { assert (V : forall v, In v (p_pts s) -> in_open_rect (p_bbox (a_obj (bn_outer (ly_bin l)))) v).
      { intros v Hv. apply even_odd_outer; [exact Go|]. apply (Fe f0 H0 eq_refl); [intros []|]. left. apply vertex_border. exact Hv. }
      intros p Hp. apply (inflate_sub (p_bbox (a_obj (bn_outer (ly_bin l))))); [|apply proper_nonempty, (gs_proper _ Go)].
      destruct (gs_box _ Gs) as (_ & (v1 & I1 & E1) & (v2 & I2 & E2) & (v3 & I3 & E3) & (v4 & I4 & E4)).
      apply V in I1, I2, I3, I4. unfold in_rect, in_open_rect in *. lra. }
    assert (Sf : sound_facts (l_facts M items l)) by (intros f Hf; apply good_sound, Gf, Hf).
    destruct (opoly_true (cfg_depth (bn_cfg (ly_bin l))) (bin_box (ly_bin l)) (l_facts M items l) Fr Sf s Gs Ins [] Gf Eo) as (f & p & Hf & _ & Rp & Bl).
    refine (Fe f Hf _ (fun x => x) p Rp Bl). unfold l_facts in Hf. apply in_app_or in Hf as [Hf|Hf].
    - apply in_map_iff in Hf as (h & <- & Hh). clear -Hh. unfold bin_statics, bin_hazards in Hh. destruct Hh as [<-|Hh]; [reflexivity|]. apply in_app_or in Hh as [Hh|Hh].
      * apply in_map_iff in Hh as (x & <- & _). reflexivity.
      * apply in_flat_map in Hh as (z & _ & Hh). apply in_map_iff in Hh as (x & <- & _). reflexivity.
    - apply in_map_iff in Hf as (x & <- & _). reflexivity.
  Qed.


  (** *** the strip keeps a packing *)
  Lemma sym_R : @feq_sym R NLS.
  Proof.
    intros a b. cbn. unfold Reqb. destruct (Req_EM_T a b), (Req_EM_T b a); congruence.
  Qed.
  Record SPInv (inst : spinst R) (p : sp) : Prop := {
    q_smi : SMI inst p [];
    q_inv : SInv inst p [];
    q_strip : exists r c ptr, bin_from_strip r c ptr = Ok (ly_bin (sp_layout p));
    q_packed : packed (si_items inst) (ly_bin (sp_layout p)) (placed (sp_layout p))
  }.
  Lemma q_fine : forall inst p, SPInv inst p -> bin_fine (ly_bin (sp_layout p)).
  Proof. intros inst p [_ _ (r & c & ptr & E) _]. eapply strip_fine. exact E. Qed.
  Lemma sp_new_SPInv : forall inst w c ptr p, sp_new inst w c ptr = Ok p -> SPInv inst p.
  Proof.
    intros inst w c ptr p H. split; [eapply (sp_new_SMI BSok sym_R); exact H|eapply sp_new_inv; exact H|..];
      unfold sp_new in H; apply rbind_ok in H as (b & Eb & H); injection H as <-; cbn [sp_layout layout_new ly_bin].
    - eauto.
    - apply packed_nil.
  Qed.
  Lemma splace_SPInv : forall inst p o ptr r p', sids_ok inst -> fine_items (si_items inst) -> SPInv inst p -> schecked p o ->
    sp_place p o ptr = Ok (r, p') -> SPInv inst p'.
  Proof.
    intros inst p o ptr r p' Ids Gi I (it & q & irr & _ & Ni & Tl & Ps & Tn) H. pose proof (q_fine _ _ I) as Bf. destruct I as [Mi Iv St Pk].
    pose proof (sm_inst _ _ _ Mi) as Ei. rewrite Ei in Ni.
    destruct (packed_cons M _ Gi (sp_layout p) it irr q (po_item o) (po_dt o) (sm_layout _ _ _ Mi) Bf Pk Ni Tl Ps Tn) as (Nin & Pc).
    destruct (sp_place_SMI BSok inst p [] o ptr r p' Ids Mi) as (Mi' & Pm); [|exact Nin|exact H|].
    { exact (good_wf _ (shape_good M _ Gi _ _ _ (po_dt o) Ni)). }
    pose proof (place_strip _ _ _ _ _ H) as Eb. split; [exact Mi'|eapply sp_place_inv; eassumption|rewrite Eb; exact St|].
    rewrite Eb. eapply packed_perm; [symmetry; exact Pm|exact Pc].
  Qed.
  (** whatever the new strip is, the items that stay form a packing of it *)
  Lemma fresh_apart : forall inst r c ptr (b : bin) it q i d, fine_items (si_items inst) -> bin_from_strip r c ptr = Ok b ->
    nth_error (si_items inst) i = Some (it, q) ->
    (poly_collides (bn_cde b) (shape_at (item_shape (si_items inst)) i d) [] = Ok false <->
     forall p, covers (si_items inst) (i, d) p -> ~ blocked (fact_of (hazard_new (D := dtransf) BinExterior (bn_outer b))) p).
  Proof.
    intros inst r c ptr b it q i d Gi Eb Ni. set (l := layout_new 0 b).
    assert (L : LI (item_shape (si_items inst)) l) by (apply (new_LI BSok); eapply (strip_good sym_R); exact Eb).
    pose proof (strip_fine _ _ _ _ Eb) as Bf. pose proof (strip_poly _ _ _ _ Eb) as (_ & Es).
    assert (K : known (si_items inst) l) by (intros x []).
    destruct (cat_good M _ Gi _ _ _ Ni) as (Ec0 & Gs).
    assert (Ec : item_shape (si_items inst) i = it_shape it) by exact Ec0.
    assert (Ef : l_facts M (si_items inst) l = [fact_of (hazard_new (D := dtransf) BinExterior (bn_outer b))]).
    { unfold l_facts. cbn [l layout_new ly_bin]. rewrite Es. reflexivity. }
    pose proof (shape_good M _ Gi _ _ _ d Ni) as Gd.
    assert (Fe : feasible (shape_at (item_shape (si_items inst)) i d) [] (l_facts M (si_items inst) l) <->
      forall p, covers (si_items inst) (i, d) p -> ~ blocked (fact_of (hazard_new (D := dtransf) BinExterior (bn_outer b))) p).
    { rewrite Ef. unfold feasible. split.
      - intros H p Cp. apply (covers_at M _ _ _ _ _ _ Ni) in Cp. apply (H _ (or_introl eq_refl) eq_refl (fun x => x)).
        unfold shape_at. rewrite Ec. exact Cp.
      - intros H f [<-|[]] _ _ p Rp. apply H. apply (covers_at M _ _ _ _ _ _ Ni). unfold shape_at in Rp. rewrite Ec in Rp. exact Rp. }
    rewrite <- Fe. split.
    - intros E. assert (Ps : passes l it [] (compose d)).
      { unfold passes. cbn [ask l layout_new ly_cde]. unfold shape_at in E. rewrite Ec in E. cbn in E. rewrite E. reflexivity. }
      pose proof (passes_feasible M _ Gi l it [] (compose d) L Bf K Gs (rigid_compose d) Ps) as Q.
      unfold shape_at. rewrite Ec. exact Q.
    - intros H. pose proof (feasible_passes _ l _ Gi L Bf K Gd H) as A. cbn [ask l layout_new ly_cde] in A.
      destruct (poly_collides (bn_cde b) _ []) as [[|]|]; [discriminate|reflexivity|discriminate].
  Qed.
  Lemma modify_SPInv : forall inst p r ptr p', sids_ok inst -> fine_items (si_items inst) -> SPInv inst p ->
    modify_strip p r ptr = Ok p' -> SPInv inst p' /\
    exists b keep, bin_from_strip r (bn_cfg (ly_bin (sp_layout p))) ptr = Ok b /\ ly_bin (sp_layout p') = b /\
      Permutation (placed (sp_layout p')) (filter keep (placed (sp_layout p))) /\
      forall x, In x (placed (sp_layout p)) -> keep x = true <->
        forall y, covers (si_items inst) x y -> ~ blocked (fact_of (hazard_new (D := dtransf) BinExterior (bn_outer b))) y.
  Proof.
    intros inst p r ptr p' Ids Gi [Mi Iv St Pk] H.
    destruct (modify_keeps BSok sym_R inst [] p p' r ptr Ids Mi H) as (b & keep & Eb & El & Pm & Kp).
    assert (Kb : forall x, In x (placed (sp_layout p)) -> keep x = true <->
        forall y, covers (si_items inst) x y -> ~ blocked (fact_of (hazard_new (D := dtransf) BinExterior (bn_outer b))) y).
    { intros [i d] Hx. destruct (packed_known M _ _ Pk _ Hx) as (it & q & Ni). cbn [fst] in Ni.
      rewrite <- (fresh_apart inst _ _ _ b it q i d Gi Eb Ni). pose proof (Kp _ Hx) as E. cbn [fst snd] in E. rewrite E.
      destruct (keep (i, d)); cbn; split; congruence. }
    split; [|exists b, keep; auto]. split.
    - eapply (modify_SMI BSok sym_R); eassumption.
    - eapply modify_inv; eassumption.
    - rewrite El. eauto.
    - rewrite El. eapply packed_perm; [symmetry; exact Pm|]. destruct Pk as (A1 & A2 & A3 & A4). split; [apply NoDup_filter; exact A1|]. split; [|split].
      + intros x y z Hx Hy. apply filter_In in Hx as (Hx & _). apply filter_In in Hy as (Hy & _). apply A2; assumption.
      + intros x it q h z Hx Ni Hh Nt Cz. apply filter_In in Hx as (Hx & Kx). rewrite (proj2 (strip_poly _ _ _ _ Eb)) in Hh. destruct Hh as [<-|[]].
        apply (proj1 (Kb x Hx) Kx). exact Cz.
      + intros x Hx. apply filter_In in Hx as (Hx & _). auto.
  Qed.
  Lemma filter_id : forall {A} (f : A -> bool) l, (forall x, In x l -> f x = true) -> filter f l = l.
  Proof. intros A f. induction l as [|x l IH]; intros H; cbn; [reflexivity|]. rewrite (H x (or_introl eq_refl)), IH; [reflexivity|]. intros y Hy. apply H. right. exact Hy. Qed.
  (** a strip that contains the old one loses nothing *)
  Lemma grow_keeps : forall inst p r ptr p', sids_ok inst -> fine_items (si_items inst) -> SPInv inst p ->
    modify_strip p r ptr = Ok p' -> x_min r <= x_min (strip_bbox p) -> y_min r <= y_min (strip_bbox p) ->
    x_max (strip_bbox p) <= x_max r -> y_max (strip_bbox p) <= y_max r ->
    strip_bbox p' = r /\ Permutation (placed (sp_layout p')) (placed (sp_layout p)).
  Proof.
    intros inst p r ptr p' Ids Gi I H X1 Y1 X2 Y2. destruct (modify_SPInv _ _ _ _ _ Ids Gi I H) as (I' & b & keep & Eb & El & Pm & Kp).
    pose proof (q_fine _ _ I) as Bf. destruct (q_strip _ _ I) as (r0 & c0 & ptr0 & Eb0).
    pose proof (strip_poly _ _ _ _ Eb0) as (_ & Es0). unfold bin_fine in Bf. rewrite Es0 in Bf. inversion Bf as [|? ? Go _]; subst. cbn in Go.
    pose proof (gs_proper _ Go) as (P1 & P2). unfold strip_bbox in *.
    assert (Pr : proper r) by (split; lra). split; [exact (strip_box _ _ _ _ Eb Pr)|].
    etransitivity; [exact Pm|]. rewrite filter_id; [reflexivity|]. intros x Hx. apply Kp; [exact Hx|].
    intros y Cy. destruct (q_packed _ _ I) as (_ & _ & A3 & A4). destruct (A4 x Hx) as (it & q & a & Ni & _).
    assert (Nb : ~ blocked (fact_of (hazard_new (D := dtransf) BinExterior (bn_outer (ly_bin (sp_layout p))))) y).
    { apply (A3 x it q (hazard_new BinExterior (bn_outer (ly_bin (sp_layout p)))) y Hx Ni); [rewrite Es0; left; reflexivity| |exact Cy].
      intros (k & z & E & _). discriminate. }
    apply (even_odd_outer _ _ Go) in Nb as (_ & (O1 & O2)).
    destruct (strip_poly _ _ _ _ Eb) as (Ep & _). destruct (rect_pts _ _ Ep) as (_ & _ & _ & Pp). specialize (Pp Pr).
    assert (In1 : interior (p_pts (a_obj (bn_outer (ly_bin (sp_layout p'))))) y).
    { rewrite Pp. apply (rbox_inside (x_min r) (y_min r) (x_max r) (y_max r) 0 y); lra. }
    intros Bl. unfold blocked in Bl. cbn in Bl. destruct In1 as (N1 & N2). destruct Bl as [Bl|Bl]; [exact (N1 Bl)|congruence].
  Qed.

  (** *** the loop *)
  Definition no_excess (inst : spinst R) (p : sp) : Prop := forall i it q, nth_error (si_items inst) i = Some (it, q) -> (count i (lst (sp_layout p)) <= q)%nat.
  Lemma splace_lst : forall inst (p : sp) o ptr r p', sids_ok inst -> SInv inst p [] -> sp_place p o ptr = Ok (r, p') ->
    Permutation (lst (sp_layout p')) (po_item o :: lst (sp_layout p)).
  Proof.
    intros inst p o ptr r p' Ids I H. unfold sp_place in H. apply rbind_ok in H as (u & _ & H).
    apply rbind_ok in H as (it & Eit & H). apply item_of_inv in Eit as (q & Eit).
    apply rbind_ok in H as ([k l] & Ep & H). apply rbind_ok in H as (m & Em & H). injection H as <- <-.
    apply place_content in Ep as (_ & _ & Ins). rewrite (s_inst _ _ _ I) in Eit. cbn [sp_layout].
    destruct (insert_lst _ _ _ _ (s_sm _ _ _ I) Ins) as (_ & P & _). cbn [pi_new pi_item] in P. rewrite (Ids _ _ _ Eit) in P. exact P.
  Qed.
  Lemma replace_count : forall inst i xs (p p' : sp), sids_ok inst -> SInv inst p [] -> rfold replace_item xs p = Ok p' ->
    (count i (lst (sp_layout p')) <= count i (lst (sp_layout p)) + count i (map (fun x => fst (fst x)) xs))%nat.
  Proof.
    intros inst i. induction xs as [|[[id d] ptr] xs IH]; intros p p' Ids I H; cbn [rfold] in H.
    - injection H as <-. lia.
    - apply rbind_ok in H as (p1 & E & H). unfold replace_item in E. apply rbind_ok in E as (it & _ & E). apply rbind_ok in E as (b & _ & E).
      cbn [map fst]. destruct b.
      + injection E as <-. specialize (IH _ _ Ids I H). cbn [count]. unfold count in *. cbn [filter]. destruct (Nat.eqb i id); cbn [length]; lia.
      + apply rbind_ok in E as ([r p2] & E & E'). injection E' as <-. pose proof (splace_lst _ _ _ _ _ _ Ids I E) as P.
        eapply sp_place_inv in E; [|exact Ids|exact I]. specialize (IH _ _ Ids E H). rewrite (count_perm _ _ _ P) in IH. cbn [po_item] in IH.
        unfold count in *. cbn [filter] in *. destruct (Nat.eqb i id); cbn [length] in *; lia.
  Qed.
  Lemma modify_excess : forall inst (p p' : sp) r ptr, sids_ok inst -> SInv inst p [] -> no_excess inst p -> modify_strip p r ptr = Ok p' -> no_excess inst p'.
  Proof.
    intros inst p p' r ptr Ids I Ne H i it q Ni. unfold modify_strip in H. apply rbind_ok in H as (m & Em & H).
    apply rbind_ok in H as (b & Eb & H). eapply (replace_count inst i) in H; [|exact Ids|].
    - specialize (Ne i it q Ni). etransitivity; [exact H|].
      cbn [sp_layout]. assert (E0 : count i (lst (layout_new (D := dtransf) (S (sp_lctr p)) b)) = 0%nat) by reflexivity.
      rewrite E0. cbn [plus]. etransitivity; [|exact Ne]. apply Nat.eq_le_incl. f_equal. unfold lst.
      rewrite <- (map_map fst fst), combine_fst by (rewrite seq_length; reflexivity). rewrite map_map. reflexivity.
    - apply fresh_strip_inv; [exact I|]. pose proof (s_inst _ _ _ I) as E. rewrite E in Em.
      eapply all_missing; [exact (proj1 (s_miss _ _ _ I))|exact Em].
  Qed.
  Lemma sfill_ok : forall inst ovf tol cfg i it q, sids_ok inst -> nth_error (si_items inst) i = Some (it, q) -> forall fuel p (g : G) ptr p' g' ptr',
    SInv inst p [] -> no_excess inst p -> sp_fill fuel cfg i it (p, g, ptr) = Ok (Some (p', g', ptr')) ->
    exists ops, rfold (sstep ovf tol) ops (p, []) = Ok (p', []) /\ sall_checked p ops /\ SInv inst p' [] /\ no_excess inst p' /\ count i (lst (sp_layout p')) = q.
  Proof.
    intros inst ovf tol cfg i it q Ids Hi.
    assert (Done : forall p m, SInv inst p [] -> no_excess inst p -> nth_error (sp_missing p) i = Some m -> (m <= 0)%Z -> count i (lst (sp_layout p)) = q).
    { intros p m I Ne Em L. destruct (s_miss _ _ _ I) as (_ & _ & K). rewrite (K _ _ _ Hi) in Em. injection Em as <-. specialize (Ne _ _ _ Hi). lia. }
    induction fuel as [|fuel IH]; intros p g ptr p' g' ptr' I Nn H; cbn [sp_fill] in H;
      apply rbind_ok in H as (m & Em & H); apply expect_ok in Em; destruct (Z.ltb_spec 0 m) as [Pm|Pm]; try discriminate.
    - injection H as <- <- <-. exists []. split; [reflexivity|]. split; [exact Logic.I|]. split; [exact I|]. split; [exact Nn|]. eapply Done; eassumption.
    - apply rbind_ok in H as ([o g1] & Ef & H). apply (find_placement_ok M) in Ef. destruct o as [o|].
      + apply rbind_ok in H as ([r p1] & Ep & H). destruct Ef as (li & l & irr & Hin & Tl & Eli & Eit & Ps & Tn). destruct Hin as [Hin|[]]. injection Hin as <- <-.
        pose proof (Ids _ _ _ Hi) as Eid.
        assert (I1 : SInv inst p1 []) by (eapply sp_place_inv; eassumption).
        assert (N1 : no_excess inst p1).
        { intros j itj qj Hj. rewrite (count_perm _ _ _ (splace_lst _ _ _ _ _ _ Ids I Ep)). rewrite Eit, Eid. unfold count. cbn [filter].
          destruct (Nat.eqb_spec j i) as [->|Hn]; [|exact (Nn _ _ _ Hj)]. cbn [length].
          destruct (s_miss _ _ _ I) as (_ & _ & K). rewrite (K _ _ _ Hj) in Em. injection Em as <-. unfold count in Pm. lia. }
        destruct (IH _ _ _ _ _ _ I1 N1 H) as (ops & R1 & C1 & I2 & N2 & D2).
        exists (SPlace o ptr :: ops). split; [|split; [|split; [exact I2|split; [exact N2|exact D2]]]].
        * cbn [rfold sstep]. rewrite Ep. cbn [rbind]. exact R1.
        * cbn [sall_checked]. split.
          -- exists it, q, irr. split; [exact Eli|]. rewrite (s_inst _ _ _ I), Eit, Eid. repeat (split; [assumption|]). exact Tn.
          -- intros k p2 E2. rewrite Ep in E2. injection E2 as <- <-. exact C1.
      + apply rbind_ok in H as (p1 & Em1 & H).
        assert (I1 : SInv inst p1 []) by (eapply modify_inv; eassumption).
        assert (N1 : no_excess inst p1) by (unfold modify_strip_in_back in Em1; eapply modify_excess; [exact Ids|exact I|exact Nn|exact Em1]).
        destruct (IH _ _ _ _ _ _ I1 N1 H) as (ops & R1 & C1 & I2 & N2 & D2).
        exists (SBack (strip_width p * (fofN 11 / fofN 10))%num ptr :: ops). split; [|split; [|split; [exact I2|split; [exact N2|exact D2]]]].
        * cbn [rfold sstep]. rewrite Em1. cbn [rbind]. exact R1.
        * cbn [sall_checked]. split.
          -- unfold strip_width, r_width. cbn. lra.
          -- intros p2 E2. rewrite Em1 in E2. injection E2 as <-. exact C1.
    - injection H as <- <- <-. exists []. split; [reflexivity|]. split; [exact Logic.I|]. split; [exact I|]. split; [exact Nn|]. eapply Done; eassumption.
  Qed.

  Lemma sops_app : forall ovf tol ops1 ops2 (p p1 : sp), rfold (sstep ovf tol) ops1 (p, []) = Ok (p1, []) -> sall_checked p ops1 ->
    sall_checked p1 ops2 -> sall_checked p (ops1 ++ ops2).
  Proof.
    intros ovf tol. induction ops1 as [|o ops1 IH]; intros ops2 p p1 R1 C1 C2.
    - cbn in R1. injection R1 as <-. exact C2.
    - cbn [rfold] in R1. apply rbind_ok in R1 as ([px hx] & E & R1). destruct o; cbn [sall_checked] in C1; try contradiction; cbn [sstep] in E.
      + apply rbind_ok in E as ([r py] & E & Z). injection Z as -> <-. destruct C1 as (C1 & C1'). cbn [app sall_checked]. split; [exact C1|].
        intros k p' E'. rewrite E in E'. injection E' as <- <-. eapply IH; [exact R1|exact (C1' _ _ E)|exact C2].
      + apply rbind_ok in E as (py & E & Z). injection Z as -> <-. destruct C1 as (C1 & C1'). cbn [app sall_checked]. split; [exact C1|].
        intros p' E'. rewrite E in E'. injection E' as <-. eapply IH; [exact R1|exact (C1' _ E)|exact C2].
  Qed.
  (** what such a history preserves *)
  Lemma srun_grows : forall inst ovf tol, sids_ok inst -> fine_items (si_items inst) -> forall ops p p' h, SPInv inst p -> sall_checked p ops ->
    rfold (sstep ovf tol) ops (p, []) = Ok (p', h) -> SPInv inst p' /\
    (forall i, (count i (lst (sp_layout p)) <= count i (lst (sp_layout p')))%nat) /\
    y_min (strip_bbox p') = y_min (strip_bbox p) /\ y_max (strip_bbox p') = y_max (strip_bbox p).
  Proof.
    intros inst ovf tol Ids Gi. induction ops as [|o ops IH]; intros p p' h I C H.
    - cbn in H. injection H as <- <-. auto.
    - cbn [rfold] in H. apply rbind_ok in H as ([p1 h1] & E & H). destruct o; cbn [sall_checked] in C; try contradiction; cbn [sstep] in E.
      + apply rbind_ok in E as ([r py] & E & Z). injection Z as <- <-. destruct C as (C1 & C2). pose proof (splace_SPInv _ _ _ _ _ _ Ids Gi I C1 E) as I1.
        destruct (IH _ _ _ I1 (C2 _ _ E) H) as (I2 & Mo & Y1 & Y2). split; [exact I2|].
        unfold strip_bbox in *. rewrite (place_strip _ _ _ _ _ E) in Y1, Y2. split; [|auto]. intros i. etransitivity; [|exact (Mo i)].
        rewrite (count_perm _ _ _ (splace_lst _ _ _ _ _ _ Ids (q_inv _ _ I) E)). unfold count. cbn [filter]. destruct (Nat.eqb i _); cbn [length]; lia.
      + apply rbind_ok in E as (py & E & Z). injection Z as <- <-. destruct C as (C1 & C2). pose proof E as E0. unfold modify_strip_in_back in E0.
        pose proof (proj1 (modify_SPInv _ _ _ _ _ Ids Gi I E0)) as I1.
        destruct (IH _ _ _ I1 (C2 _ E) H) as (I2 & Mo & Y1 & Y2). split; [exact I2|].
        pose proof (q_fine _ _ I) as Bf. unfold bin_fine in Bf. rewrite Forall_forall in Bf.
        specialize (Bf _ (or_introl eq_refl)). cbn in Bf. pose proof (gs_proper _ Bf) as (P1 & P2).
        assert (Q : strip_bbox py = Rc (x_min (strip_bbox p)) (y_min (strip_bbox p)) (x_min (strip_bbox p) + w) (y_max (strip_bbox p)) /\
          Permutation (placed (sp_layout py)) (placed (sp_layout p))).
        { assert (L : x_max (strip_bbox p) <= x_min (strip_bbox p) + w) by (rewrite C1; unfold strip_bbox in *; lra).
          apply (grow_keeps inst p _ ptr py Ids Gi I E0); cbn [x_min x_max y_min y_max]; first [exact L|apply Rle_refl]. }
        destruct Q as (Q1 & Q2). rewrite Y1, Y2, Q1. cbn [y_min y_max]. split; [|auto]. intros i. etransitivity; [|exact (Mo i)].
        unfold lst. apply Nat.eq_le_incl. apply count_perm. apply Permutation_sym. apply (Permutation_map fst) in Q2. unfold placed in Q2. rewrite !map_map in Q2. exact Q2.
  Qed.
  Lemma sfill_all_ok : forall inst ovf tol cfg, sids_ok inst -> forall fuel order p (g : G) ptr p' g' ptr',
    SInv inst p [] -> no_excess inst p -> sp_fill_all fuel cfg order (p, g, ptr) = Ok (Some (p', g', ptr')) ->
    exists ops, rfold (sstep ovf tol) ops (p, []) = Ok (p', []) /\ sall_checked p ops /\ SInv inst p' [] /\ no_excess inst p' /\
      (fine_items (si_items inst) -> SPInv inst p -> forall i it q, In i order -> nth_error (si_items inst) i = Some (it, q) -> count i (lst (sp_layout p')) = q).
  Proof.
    intros inst ovf tol cfg Ids fuel. induction order as [|i order IH]; intros p g ptr p' g' ptr' I Nn H; cbn [sp_fill_all fst] in H.
    - injection H as <- <- <-. exists []. split; [reflexivity|]. split; [exact Logic.I|]. split; [exact I|]. split; [exact Nn|]. intros _ _ i it q [].
    - apply rbind_ok in H as (it & Eit & H). rewrite (s_inst _ _ _ I) in Eit. apply item_of_inv in Eit as (q & Eit).
      apply rbind_ok in H as (o & Ef & H). destruct o as [[[p1 g1] ptr1]|]; [|discriminate].
      destruct (sfill_ok inst ovf tol cfg i it q Ids Eit _ _ _ _ _ _ _ I Nn Ef) as (ops1 & R1 & C1 & I1 & N1 & D1).
      destruct (IH _ _ _ _ _ _ I1 N1 H) as (ops2 & R2 & C2 & I2 & N2 & D2).
      exists (ops1 ++ ops2). split; [rewrite rfold_app, R1; exact R2|]. split; [eapply sops_app; eassumption|]. split; [exact I2|]. split; [exact N2|].
      intros Gi Q j itj qj Hj Nj. destruct (srun_grows inst ovf tol Ids Gi _ _ _ _ Q C1 R1) as (Q1 & _).
      destruct Hj as [<-|Hj]; [|exact (D2 Gi Q1 j itj qj Hj Nj)].
      destruct (srun_grows inst ovf tol Ids Gi _ _ _ _ Q1 C2 R2) as (_ & Mo & _). specialize (Mo i). rewrite Eit in Nj. injection Nj as <- <-.
      specialize (N2 _ _ _ Eit). lia.
  Qed.
  Lemma new_excess : forall inst w c ptr (p : sp), sp_new inst w c ptr = Ok p -> no_excess inst p.
  Proof.
    intros inst w c ptr p H i it q Ni. unfold sp_new in H. apply rbind_ok in H as (b & _ & H). injection H as <-. cbn. lia.
  Qed.

  (** *** the statements *)
  Lemma lbf_sp_run : forall items hgt (inst : spinst R) ovf fuel tol c cfg (g : G) ptr p s p2,
    spinst_new items hgt = Ok inst -> lbf_sp fuel tol inst c cfg g ptr = Ok (Some (p, s, p2)) ->
    exists p0 ops ptr' p1, sp_new inst (si_area inst * 2 / hgt) c ptr = Ok p0 /\ sall_checked p0 ops /\
      sp_run ovf tol inst (si_area inst * 2 / hgt) c ptr ops = Ok (p, []) /\
      fit_strip tol p ptr' = Ok p1 /\ sp_create p1 = Ok (s, p2) /\
      forall i it q, nth_error items i = Some (it, q) -> (copies i [sp_layout p] <= q)%nat.
  Proof.
    intros items hgt inst ovf fuel tol c cfg g ptr p s p2 Hn H. pose proof (sinst_ids _ _ _ Hn) as Ids.
    unfold spinst_new in Hn. apply rbind_ok in Hn as (u & _ & Hn). injection Hn as Hn. unfold lbf_sp in H.
    apply rbind_ok in H as ([] & _ & H). apply rbind_ok in H as (p0 & E0 & H). apply rbind_ok in H as (order & Eo & H).
    apply rbind_ok in H as (o & Ef & H). destruct o as [[[px gx] ptrx]|]; [|discriminate].
    apply rbind_ok in H as (p1 & Efit & H). apply rbind_ok in H as ([sx px2] & Ec & H). injection H as -> -> ->.
    destruct (sfill_all_ok inst ovf tol cfg Ids _ _ _ _ _ _ _ _ (sp_new_inv _ _ _ _ _ E0) (new_excess _ _ _ _ _ E0) Ef) as (ops & R1 & C1 & I1 & N1 & _).
    assert (E0' : sp_new inst (si_area inst * 2 / hgt) c ptr = Ok p0) by (rewrite <- E0; subst inst; reflexivity).
    exists p0, ops, ptrx, p1. split; [exact E0'|]. split; [exact C1|]. split; [unfold sp_run; rewrite E0'; exact R1|]. split; [exact Efit|]. split; [exact Ec|].
    intros i it q Hi. subst inst. specialize (N1 i it q Hi). unfold copies, items_in. cbn [flat_map]. rewrite app_nil_r. exact N1.
  Qed.
  Lemma lbf_sp_packs : forall items hgt (inst : spinst R) fuel tol c cfg (g : G) ptr p s p2,
    spinst_new items hgt = Ok inst -> fine_items items -> lbf_sp fuel tol inst c cfg g ptr = Ok (Some (p, s, p2)) ->
    exists sn, so_layouts s = [sn] /\ packed items (ls_bin sn) (snap_placed sn) /\
      (forall i it q, nth_error items i = Some (it, q) -> count i (sol_items s) = q) /\
      y_min (p_bbox (a_obj (bn_outer (ls_bin sn)))) = Rmin 0 hgt /\ y_max (p_bbox (a_obj (bn_outer (ls_bin sn)))) = Rmax 0 hgt /\
      bin_statics (ls_bin sn) = [hazard_new BinExterior (bn_outer (ls_bin sn))] /\
      good_shape (a_obj (bn_outer (ls_bin sn))).
  Proof.
    intros items hgt inst fuel tol c cfg g ptr p s p2 Hn Gi H. pose proof (sinst_ids _ _ _ Hn) as Ids.
    unfold spinst_new in Hn. apply rbind_ok in Hn as (u & _ & Hn). injection Hn as Hn. unfold lbf_sp in H.
    apply rbind_ok in H as ([] & _ & H). apply rbind_ok in H as (p0 & E0 & H). apply rbind_ok in H as (order & Eo & H).
    apply rbind_ok in H as (o & Ef & H). destruct o as [[[px gx] ptrx]|]; [|discriminate].
    apply rbind_ok in H as (p1 & Efit & H). apply rbind_ok in H as ([sx px2] & Ec & H). injection H as -> -> ->.
    assert (Ei : si_items inst = items) by (subst inst; reflexivity). rewrite <- Ei in Gi |- *.
    pose proof (sp_new_SPInv _ _ _ _ _ E0) as Q0.
    destruct (sfill_all_ok inst false tol cfg Ids _ _ _ _ _ _ _ _ (sp_new_inv _ _ _ _ _ E0) (new_excess _ _ _ _ _ E0) Ef) as (ops & R1 & C1 & I1 & N1 & D1).
    destruct (srun_grows inst false tol Ids Gi _ _ _ _ Q0 C1 R1) as (Q1 & _ & Y1 & Y2).
    pose proof (fit_keeps BSok sym_R inst [] tol p p1 ptrx Ids (q_smi _ _ Q1) (q_inv _ _ Q1) Efit) as Pf.
    assert (Q2 : SPInv inst p1 /\ y_min (strip_bbox p1) = y_min (strip_bbox p) /\ y_max (strip_bbox p1) = y_max (strip_bbox p)).
    { unfold fit_strip in Efit. apply rbind_ok in Efit as (pz & Efit & Z). apply rbind_ok in Z as (? & _ & Z). injection Z as ->.
      unfold modify_strip_centered in Efit. match type of Efit with context [let '(_, _) := ?e in _] => destruct e as [a b] end.
      destruct (modify_SPInv _ _ _ _ _ Ids Gi Q1 Efit) as (Q2 & bb & keep & Eb & El & _). split; [exact Q2|].
      unfold strip_bbox at 1 3. rewrite El. destruct (strip_poly _ _ _ _ Eb) as (Ep & _). rewrite (rect_bbox _ _ Ep). cbn [y_min y_max].
      pose proof (q_fine _ _ Q1) as Bf. unfold bin_fine in Bf. rewrite Forall_forall in Bf.
      specialize (Bf _ (or_introl eq_refl)). cbn in Bf. pose proof (gs_proper _ Bf) as (P1 & P2). unfold strip_bbox.
      rewrite Rmin_left, Rmax_right by lra. auto. }
    destruct Q2 as (Q2 & Y3 & Y4). apply sp_create_spec in Ec as (sn & l & Es & _ & Esol & _).
    apply snapshot_content in Es as (_ & C2 & _). unfold content, snap_content in C2. injection C2 as _ B2 I2.
    exists sn. split; [rewrite Esol; reflexivity|]. split; [unfold snap_placed; rewrite B2, I2; exact (q_packed _ _ Q2)|]. split; [|split; [|split; [|split]]].
    - intros i it q Hi. unfold sol_items. rewrite Esol. cbn [so_layouts flat_map]. rewrite app_nil_r. unfold snap_placed. rewrite I2.
      rewrite map_map. cbn [fst]. assert (Hc : count i (lst (sp_layout p)) = q).
      { apply (D1 Gi Q0 i it q); [|exact Hi]. apply (order_perm M) in Eo. eapply Permutation_in; [symmetry; exact Eo|]. apply in_seq.
        assert (nth_error (si_items inst) i <> None) as Z by congruence. apply nth_error_Some in Z. lia. }
      rewrite <- Hc. apply count_perm. unfold lst. apply (Permutation_map fst) in Pf. unfold placed in Pf. rewrite !map_map in Pf. exact Pf.
    - rewrite B2. change (y_min (strip_bbox p1) = Rmin 0 hgt). rewrite Y3, Y1. unfold sp_new in E0. apply rbind_ok in E0 as (b & Eb & E0). injection E0 as <-.
      unfold strip_bbox. cbn [sp_layout layout_new ly_bin]. destruct (strip_poly _ _ _ _ Eb) as (Ep & _). rewrite (rect_bbox _ _ Ep). subst inst. reflexivity.
    - rewrite B2. change (y_max (strip_bbox p1) = Rmax 0 hgt). rewrite Y4, Y2. unfold sp_new in E0. apply rbind_ok in E0 as (b & Eb & E0). injection E0 as <-.
      unfold strip_bbox. cbn [sp_layout layout_new ly_bin]. destruct (strip_poly _ _ _ _ Eb) as (Ep & _). rewrite (rect_bbox _ _ Ep). subst inst. reflexivity.
    - rewrite B2. destruct (q_strip _ _ Q2) as (r & c0 & ptr0 & Eb). exact (proj2 (strip_poly _ _ _ _ Eb)).
    - rewrite B2. destruct (q_strip _ _ Q2) as (r & c0 & ptr0 & Eb). exact (rect_good _ _ (proj1 (strip_poly _ _ _ _ Eb))).
  Qed.
End S.
