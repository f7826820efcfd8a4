(** Consequences of the mirror invariant: restored layouts answer as before, resizing
    a strip keeps exactly the items inside it. *)
From Coq Require Import List Bool Arith ZArith Lia Permutation.
From Verif Require Import Base Num GeoModel HazardModel QTModel TransfModel HpgModel CdeModel
  PolyModel SlotMapModel LayoutModel ProblemModel ProblemSpec BaseProofs HazVecProofs CdeProofs CdeSpec CdeHistProofs
  SlotMapProofs ProblemProofs ProblemOpsProofs StripProofs LayoutProofs MirrorProofs ProblemThmProofs.
Import ListNotations.

Section MT.
  Context {F : Type} {N : Num F} {D : Type} {ED : EqD D} {BS : BSearch} {DC : DComp F D}.
  Hypothesis BSok : bsearch_ok BS.
  Local Notation item := (item F).
  Local Notation bin := (bin F D).
  Local Notation layout := (layout F D).
  Local Notation lsnap := (lsnap F D).
  Local Notation solution := (solution F D).
  Local Notation bp := (bp F D).
  Local Notation sp := (sp F D).
  Local Notation pitem := (pitem F D).

  (** layouts with the same content answer alike *)
  Lemma mirrored_same : forall cat (l l' : layout), mirrored cat l -> mirrored cat l' -> content l = content l' ->
    forall q, good_question q -> exists t, ask (ly_cde l) q = Ok t /\ ask (ly_cde l') q = Ok t.
  Proof.
    intros cat l l' (_ & _ & _ & c & sn & E & A) (_ & _ & _ & c' & sn' & E' & A') Ec q G.
    unfold ProblemSpec.content in Ec. injection Ec as _ Eb Ei. rewrite Eb, Ei, E' in E. injection E as -> _.
    destruct (A q G) as (t & A1 & A2), (A' q G) as (t' & A1' & A2'). exists t. split; [exact A1|]. congruence.
  Qed.
  Lemma bops_prefix : forall ovf ops ops' s, bops_ok ovf s (ops ++ ops') -> bops_ok ovf s ops.
  Proof.
    intros ovf. induction ops as [|o ops IH]; intros ops' s H; cbn [bops_ok app] in *; [exact I|].
    destruct H as (H1 & H2). split; [exact H1|]. destruct (bstep ovf s o); [|exact I]. eapply IH. exact H2.
  Qed.
  Lemma bp_restored_answers : forall inst ovf ops1 o ops2 (p1 : bp) h1 p2 h2,
    good_inst inst ->
    bops_ok ovf (bp_new inst, []) (ops1 ++ [BCreate o] ++ ops2 ++ [BRestore (length h1 - 1)]) ->
    bp_run ovf inst (ops1 ++ [BCreate o]) = Ok (p1, h1) ->
    bp_run ovf inst (ops1 ++ [BCreate o] ++ ops2 ++ [BRestore (length h1 - 1)]) = Ok (p2, h2) ->
    forall l1, In l1 (bp_layouts p1) -> exists l2, In l2 (bp_layouts p2) /\ content l2 = content l1 /\
      forall q, good_question q -> exists t, ask (ly_cde l1) q = Ok t /\ ask (ly_cde l2) q = Ok t.
  Proof.
    intros inst ovf ops1 o ops2 p1 h1 p2 h2 G V H1 H2 l1 Hl.
    pose proof (bp_mirror BSok _ _ _ _ _ G V H2) as M2.
    rewrite app_assoc in V. apply bops_prefix in V. pose proof (bp_mirror BSok _ _ _ _ _ G V H1) as M1.
    destruct G as ((items & bins & Hi) & _).
    destruct (bp_restored _ _ _ _ _ _ _ _ _ _ _ Hi H1 H2) as (_ & _ & P).
    assert (In (content l1) (map content (bp_layouts p2))) as J.
    { eapply Permutation_in; [symmetry; exact P|]. apply in_map. exact Hl. }
    apply in_map_iff in J as (l2 & E & J). exists l2. split; [exact J|]. split; [exact E|].
    rewrite Forall_forall in M1, M2. apply (mirrored_same (item_shape (bi_items inst))); auto.
  Qed.

  (** *** strips *)
  Hypothesis sym : @feq_sym F N.
  Lemma sops_prefix : forall ovf tol ops ops' s, sops_ok ovf tol s (ops ++ ops') -> sops_ok ovf tol s ops.
  Proof.
    intros ovf tol. induction ops as [|o ops IH]; intros ops' s H; cbn [sops_ok app] in *; [exact I|].
    destruct H as (H1 & H2). split; [exact H1|]. destruct (sstep ovf tol s o); [|exact I]. eapply IH. exact H2.
  Qed.
  Lemma sp_restored_answers : forall inst ovf tol w c ptr ops1 ops2 (p0 p1 : sp) h1 p2 h2,
    good_sinst inst -> sp_new inst w c ptr = Ok p0 ->
    sops_ok ovf tol (p0, []) (ops1 ++ [SCreate] ++ ops2 ++ [SRestore (length h1 - 1)]) ->
    sp_run ovf tol inst w c ptr (ops1 ++ [SCreate]) = Ok (p1, h1) ->
    sp_run ovf tol inst w c ptr (ops1 ++ [SCreate] ++ ops2 ++ [SRestore (length h1 - 1)]) = Ok (p2, h2) ->
    forall q, good_question q -> exists t, ask (ly_cde (sp_layout p1)) q = Ok t /\ ask (ly_cde (sp_layout p2)) q = Ok t.
  Proof.
    intros inst ovf tol w c ptr ops1 ops2 p0 p1 h1 p2 h2 G E0 V H1 H2. pose proof G as (items & hgt & Hi).
    destruct (sp_restored _ _ _ _ _ _ _ _ _ _ _ _ _ _ Hi H1 H2) as (_ & E).
    unfold sp_run in H1, H2. rewrite E0 in H1, H2. cbn [rbind] in H1, H2.
    pose proof (sp_mirror BSok sym _ _ _ _ _ _ _ _ _ _ G E0 V H2) as M2.
    rewrite app_assoc in V. apply sops_prefix in V.
    pose proof (sp_mirror BSok sym _ _ _ _ _ _ _ _ _ _ G E0 V H1) as M1.
    apply (mirrored_same _ _ _ M1 M2). symmetry. exact E.
  Qed.

  Definition strip_bin (b : bin) : Prop := exists o, bin_statics b = [hazard_new BinExterior o].
  Lemma strip_statics : forall r c ptr (b : bin), bin_from_strip r c ptr = Ok b -> strip_bin b.
  Proof.
    intros r c ptr b H. unfold bin_from_strip in H. apply rbind_ok in H as (s & Es & H).
    apply bin_new_spec in H as (_ & Eo & Eh & _ & Ez & _). exists (bn_outer b). unfold bin_statics. rewrite Eo, Eh, Ez. reflexivity.
  Qed.
  (** ignoring everything but the exterior is asking the empty strip *)
  Lemma exterior_answer : forall cat (l : layout) s, LI cat l -> strip_bin (ly_bin l) -> good_poly s ->
    poly_collides (ly_cde l) s (filter (fun e => negb (is_exterior e)) (map (@h_ent F D) (all_hazards (ly_cde l)))) =
    poly_collides (bn_cde (ly_bin l)) s [].
  Proof.
    intros cat l s L (o & Eo) G. pose proof L as (Gb & (S1 & S2 & S3) & R).
    pose proof (new_LI BSok cat 0 _ Gb) as (_ & _ & R0). cbn [layout_new ly_cde ly_bin ly_items] in R0.
    set (irr := filter _ _).
    rewrite (poly_collides_spec _ _ _ s irr (rl_inv _ _ _ _ _ _ _ R) G).
    rewrite (poly_collides_spec _ _ _ s [] (rl_inv _ _ _ _ _ _ _ R0) G).
    rewrite opoly_ignore. f_equal. f_equal.
    pose proof (rl_facts _ _ _ _ _ _ _ R0) as F0. cbn in F0.
    assert (cd_dyn (bn_cde (ly_bin l)) = []) as D0 by (symmetry in F0; apply Permutation_nil in F0; apply map_eq_nil in F0; exact F0).
    assert (registered (bn_cde (ly_bin l)) = [obs_of (hazard_new BinExterior o)]) as ->.
    { unfold registered, all_hazards. rewrite D0, (rl_static _ _ _ _ _ _ _ R0), Eo. reflexivity. }
    assert (forall h, In h (cd_dyn (ly_cde l)) -> is_exterior (h_ent h) = false) as Hd.
    { intros h Hh. apply (in_map fact_of) in Hh. eapply Permutation_in in Hh; [|exact (rl_facts _ _ _ _ _ _ _ R)].
      cbn [fst] in Hh. apply in_map_iff in Hh as (p & E & _). unfold pfact, fact_of in E. cbn in E.
      injection E as E _ _. rewrite <- E. reflexivity. }
    assert (all_hazards (ly_cde l) = hazard_new BinExterior o :: cd_dyn (ly_cde l)) as Ea.
    { unfold all_hazards. rewrite (rl_static _ _ _ _ _ _ _ R), Eo. reflexivity. }
    unfold registered. rewrite Ea. cbn [map filter].
    assert (rel irr (obs_of (hazard_new BinExterior o)) = true) as ->.
    { unfold rel. apply negb_true_iff. apply memb_ent_false. intros J. unfold irr in J. apply filter_In in J as (_ & J).
      cbn in J. discriminate. }
    f_equal. induction (cd_dyn (ly_cde l)) as [|h hs IH] eqn:Ed; [reflexivity|].
    assert (forall hs', incl hs' (cd_dyn (ly_cde l)) -> filter (rel irr) (map obs_of hs') = []) as K.
    { clear IH. induction hs' as [|x hs' IH]; intros Hin; [reflexivity|]. cbn [map filter].
      assert (rel irr (obs_of x) = false) as ->.
      { unfold rel. apply negb_false_iff. apply memb_ent. unfold irr. apply filter_In. split.
        - change (o_ent (obs_of x)) with (h_ent x). apply in_map. rewrite Ea. right. rewrite <- Ed. apply Hin. left. reflexivity.
        - change (o_ent (obs_of x)) with (h_ent x). rewrite Hd; [reflexivity|]. rewrite <- Ed. apply Hin. left. reflexivity. }
      apply IH. intros y Hy. apply Hin. right. exact Hy. }
    apply K. rewrite Ed. apply incl_refl.
  Qed.

  Lemma place_strip : forall (p p' : sp) o ptr r, sp_place p o ptr = Ok (r, p') ->
    ly_bin (sp_layout p') = ly_bin (sp_layout p).
  Proof.
    intros p p' o ptr r H2. unfold sp_place in H2. apply rbind_ok in H2 as (u & _ & H2). apply rbind_ok in H2 as (it' & _ & H2).
    apply rbind_ok in H2 as ((k & l) & Hl & H2). apply rbind_ok in H2 as (m & _ & H2). injection H2 as _ <-.
    cbn [sp_layout]. apply place_content in Hl as (_ & -> & _). reflexivity.
  Qed.
  (** what the loop over the old items keeps *)
  Lemma replace_keeps : forall inst h xs (p p' : sp), sids_ok inst -> SMI inst p h -> strip_bin (ly_bin (sp_layout p)) ->
    Forall (fun x => good_poly (shape_at (item_shape (si_items inst)) (fst (fst x)) (snd (fst x)))) xs ->
    NoDup (map fst xs) -> (forall x, In x (map fst xs) -> ~ In x (placed (sp_layout p))) ->
    rfold replace_item xs p = Ok p' ->
    exists kept, Permutation (placed (sp_layout p')) (placed (sp_layout p) ++ kept) /\ incl kept (map fst xs) /\ NoDup kept /\
      forall x, In x (map fst xs) -> exists b,
        poly_collides (bn_cde (ly_bin (sp_layout p))) (shape_at (item_shape (si_items inst)) (fst x) (snd x)) [] = Ok b /\
        (In x kept <-> b = false).
  Proof.
    induction xs as [|[[id d] ptr] xs IH]; intros p p' Ids I St Gx ND Fr H; cbn [rfold] in H.
    - injection H as <-. exists []. rewrite app_nil_r. split; [reflexivity|]. split; [apply incl_refl|]. split; [constructor|]. intros x [].
    - apply rbind_ok in H as (p1 & E & H). inversion Gx as [|? ? G1 Gx']; subst. cbn [map fst] in ND.
      inversion ND as [|? ? N1 ND']; subst. cbn [fst snd] in *.
      unfold replace_item in E. apply rbind_ok in E as (it & Eit & E). apply rbind_ok in E as (b & Eb & E).
      rewrite (sm_inst _ _ _ I) in Eit. apply item_of_inv in Eit as (n & Eit).
      assert (tr_poly (dcompose d) (it_shape it) = shape_at (item_shape (si_items inst)) id d) as Es
        by (unfold shape_at; rewrite (item_shape_of _ _ _ _ Eit); reflexivity).
      rewrite Es, (exterior_answer _ _ _ (sm_layout _ _ _ I) St G1) in Eb.
      destruct b.
      + injection E as <-.
        destruct (IH p p' Ids I St Gx' ND') as (kept & P & Hin & Nk & K); [intros x Hx; apply Fr; right; exact Hx|exact H|].
        exists kept. split; [exact P|]. split; [intros x Hx; right; apply Hin; exact Hx|]. split; [exact Nk|].
        intros x [<-|Hx]; [|apply K; exact Hx]. exists true. cbn [fst snd]. split; [exact Eb|].
        split; [|discriminate]. intros Hk. exfalso. apply N1, Hin, Hk.
      + apply rbind_ok in E as ([r p2] & E & E'). injection E' as <-. pose proof (place_strip _ _ _ _ _ E) as Ebin.
        eapply (sp_place_SMI BSok) in E as (I1 & P1); [|exact Ids|exact I|exact G1|apply (Fr (id, d)); left; reflexivity].
        cbn [po_item po_dt] in P1.
        destruct (IH p2 p' Ids I1) as (kept & P & Hin & Nk & K).
        * rewrite Ebin. exact St.
        * exact Gx'.
        * exact ND'.
        * intros x Hx Hp. eapply Permutation_in in Hp; [|exact P1]. destruct Hp as [<-|Hp].
          { contradiction. } apply (Fr x); [right; exact Hx|exact Hp].
        * exact H.
        * exists ((id, d) :: kept). split; [|split; [|split]].
          { etransitivity; [exact P|]. etransitivity; [apply Permutation_app_tail; exact P1|]. cbn [app].
            apply Permutation_middle. }
          { intros x [<-|Hx]; [left; reflexivity|right; apply Hin; exact Hx]. }
          { constructor; [|exact Nk]. intros J. apply N1, Hin, J. }
          { intros x [<-|Hx].
            - exists false. cbn [fst snd]. split; [exact Eb|]. split; [reflexivity|left; reflexivity].
            - destruct (K x Hx) as (b & Kb & Kx). rewrite Ebin in Kb. exists b. split; [exact Kb|]. rewrite <- Kx.
              split; [|right; assumption]. intros [<-|J]; [contradiction|exact J]. }
  Qed.
  Lemma modify_keeps : forall inst h (p p' : sp) r ptr, sids_ok inst -> SMI inst p h ->
    modify_strip p r ptr = Ok p' ->
    exists b keep, bin_from_strip r (bn_cfg (ly_bin (sp_layout p))) ptr = Ok b /\ ly_bin (sp_layout p') = b /\
      Permutation (placed (sp_layout p')) (filter keep (placed (sp_layout p))) /\
      forall x, In x (placed (sp_layout p)) ->
        poly_collides (bn_cde b) (shape_at (item_shape (si_items inst)) (fst x) (snd x)) [] = Ok (negb (keep x)).
  Proof.
    intros inst h p p' r ptr Ids I H. pose proof I as [I1 I2 I3]. unfold modify_strip in H. apply rbind_ok in H as (m & Em & H).
    apply rbind_ok in H as (b & Eb & H).
    change (map (fun pi : pitem => (pi_item pi, pi_dt pi)) (sm_values (ly_items (sp_layout p)))) with (placed (sp_layout p)) in H.
    set (pl := placed (sp_layout p)) in *.
    assert (Ef : map fst (combine pl (seq (S ptr) (length pl))) = pl) by (apply combine_fst; rewrite seq_length; reflexivity).
    pose proof (proj1 (LI_mirror BSok _ _ I2)) as NDp. fold pl in NDp.
    pose proof (proj2 (replace_id _ _ _ H)) as Ebin. cbn [sp_layout layout_new ly_bin] in Ebin.
    match type of H with rfold _ ?xs ?q = _ => destruct (replace_keeps inst h xs q p' Ids) as (kept & P & Hin & Nk & K) end.
    - split; cbn [sp_inst sp_layout]; auto. apply (new_LI BSok). eapply (strip_good sym), Eb.
    - cbn [sp_layout layout_new ly_bin]. eapply strip_statics, Eb.
    - rewrite Forall_forall. intros x Hx. apply (in_map fst) in Hx. rewrite Ef in Hx. unfold pl, placed in Hx.
      apply in_map_iff in Hx as (pi & <- & Hpi). cbn [fst snd].
      destruct I2 as (_ & (_ & Fi & _) & _). rewrite Forall_forall in Fi. destruct (Fi pi Hpi) as (E & G).
      rewrite <- E. exact G.
    - rewrite Ef. exact NDp.
    - intros x _ [].
    - exact H.
    - cbn [sp_layout layout_new ly_bin] in *. rewrite Ef in *.
      assert (placed (layout_new (S (sp_lctr p)) b) = []) as E0 by reflexivity. rewrite E0 in P. cbn [app] in P.
      set (keep := fun x : nat * D => match poly_collides (bn_cde b) (shape_at (item_shape (si_items inst)) (fst x) (snd x)) [] with
                                      | Ok c => negb c | Panic => false end).
      assert (forall x, In x pl -> poly_collides (bn_cde b) (shape_at (item_shape (si_items inst)) (fst x) (snd x)) [] = Ok (negb (keep x)) /\
        (In x kept <-> keep x = true)) as Kk.
      { intros x Hx. destruct (K x Hx) as (c & E & Ec). unfold keep. rewrite E, negb_involutive. split; [reflexivity|].
        rewrite Ec, negb_true_iff. reflexivity. }
      exists b, keep. split; [exact Eb|]. split; [exact Ebin|]. split; [|intros x Hx; apply Kk; exact Hx].
      etransitivity; [exact P|]. apply NoDup_Permutation; [exact Nk|apply NoDup_filter; exact NDp|].
      intros x. rewrite filter_In. split.
      + intros J. split; [apply Hin; exact J|]. apply Kk; [apply Hin; exact J|exact J].
      + intros (J & E). apply Kk; assumption.
  Qed.
  Lemma filter_len_all : forall {A} (f : A -> bool) l, length (filter f l) = length l -> filter f l = l.
  Proof.
    induction l as [|x l IH]; intros H; [reflexivity|]. cbn [filter length] in *. destruct (f x); cbn [length] in H.
    - f_equal. apply IH. lia.
    - exfalso. assert (length (filter f l) <= length l); [|lia]. clear. induction l as [|y l IH]; cbn [filter length]; [lia|].
      destruct (f y); cbn [length]; lia.
  Qed.
  Lemma fit_keeps : forall inst h tol (p p' : sp) ptr, sids_ok inst -> SMI inst p h -> SInv inst p h ->
    fit_strip tol p ptr = Ok p' -> Permutation (placed (sp_layout p')) (placed (sp_layout p)).
  Proof.
    intros inst h tol p p' ptr Ids I Iv H. unfold fit_strip in H. apply rbind_ok in H as (q & Hm & H).
    apply rbind_ok in H as (u & Hu & H). injection H as ->.
    unfold modify_strip_centered in Hm. destruct (match occupied_range (sp_layout p) with Some r => r | None => _ end) as (x & y).
    pose proof (modify_inv _ _ _ _ _ _ Ids Iv Hm) as Iv'.
    destruct (modify_keeps _ _ _ _ _ _ Ids I Hm) as (b & keep & _ & _ & P & _).
    etransitivity; [exact P|]. rewrite filter_len_all; [reflexivity|].
    apply Permutation_length in P. rewrite <- P.
    unfold rassert in Hu. destruct (Nat.eqb _ _) eqn:E in Hu; [|discriminate]. apply Nat.eqb_eq in E.
    rewrite (len_spec _ (s_sm _ _ _ Iv)), (len_spec _ (s_sm _ _ _ Iv')) in E.
    unfold placed. rewrite !map_length. congruence.
  Qed.
End MT.
