(** The theorems about the collision detection engine, in the vocabulary of
    [CdeSpec]. *)
From Coq Require Import List Bool Arith ZArith Lia Permutation.
From Verif Require Import Base Num GeoModel HazardModel QTModel TransfModel HpgModel CdeModel
  BaseProofs HazVecProofs QTProofs CdeProofs CdeOpsProofs CdeSpec CdeHistProofs CdeCollectProofs.
Import ListNotations.

Section HvT.
  Context {F : Type} {D : Type} {ED : EqD D} {BS : BSearch}.
  Hypothesis BSok : bsearch_ok BS.
  Local Notation qth := (qth F D).
  Local Notation entity := (entity D).

  Lemma hv_astep_nodup : forall (A : list qth) o, NoDup (map (@q_ent F D) A) -> hvop_ok A o ->
    NoDup (map (@q_ent F D) (hv_astep A o)).
  Proof.
    intros A [h|e|e|e] ND V; cbn [hv_astep hvop_ok] in *.
    - cbn [map]. constructor; assumption.
    - clear V. induction A as [|x A IH]; cbn [filter map] in *; [constructor|].
      inversion ND as [|? ? Nx ND']; subst. destruct (negb _); cbn [map]; [|auto].
      constructor; [|auto]. intros X. apply Nx. apply in_map_iff in X as (y & <- & Hy).
      apply in_map. apply filter_In in Hy. apply Hy.
    - rewrite map_map. rewrite (map_ext _ (@q_ent F D)); [exact ND|].
      intros x. unfold set_flag. destruct (ent_eqb (q_ent x) e); reflexivity.
    - rewrite map_map. rewrite (map_ext _ (@q_ent F D)); [exact ND|].
      intros x. unfold set_flag. destruct (ent_eqb (q_ent x) e); reflexivity.
  Qed.

  Lemma hv_step_rep : forall (v : hvec F D) A o, hv_rep v A -> NoDup (map (@q_ent F D) A) -> hvop_ok A o ->
    hv_rep (hv_step v o) (hv_astep A o).
  Proof.
    intros v A [h|e|e|e] R ND V; cbn [hv_astep hv_step hvop_ok] in *.
    - apply hv_add_rep; assumption.
    - apply (hv_remove_rep v A e R ND).
    - apply (hv_toggle_rep BSok true v A e R ND V).
    - apply (hv_toggle_rep BSok false v A e R ND V).
  Qed.

  Lemma hv_run_rep : forall ops (v : hvec F D) A, hv_rep v A -> NoDup (map (@q_ent F D) A) -> hvops_ok A ops ->
    hv_rep (fold_left hv_step ops v) (fold_left hv_astep ops A).
  Proof.
    induction ops as [|o ops IH]; intros v A R ND V; cbn [fold_left]; [exact R|].
    destruct V as (V1 & V2). apply IH; [apply hv_step_rep|apply hv_astep_nodup|]; assumption.
  Qed.

  Lemma strongest_exact : forall ops irr, hvops_ok ([] : list qth) ops ->
    exists o, strongest (fold_left hv_step ops hv_new) irr = Ok o /\
      match o with
      | Some h => candidate (fold_left hv_astep ops []) irr h /\
                  forall h', candidate (fold_left hv_astep ops []) irr h' -> stronger_eq (q_pres h) (q_pres h')
      | None => forall h, ~ candidate (fold_left hv_astep ops []) irr h
      end.
  Proof.
    intros ops irr V.
    pose proof (hv_run_rep ops hv_new [] hv_new_rep (NoDup_nil _) V) as R.
    destruct (strongest_spec _ _ irr R) as (o & E & H). exists o. split; [exact E|].
    assert (K : forall h, candidate (fold_left hv_astep ops []) irr h <->
                 In h (fold_left hv_astep ops []) /\ relevant irr h = true).
    { intros h. unfold candidate. rewrite relevant_in. tauto. }
    destruct o as [h|].
    - destruct H as (H1 & H2 & H3). split; [apply K; auto|]. intros h' Hh'. apply K in Hh' as (A1 & A2).
      specialize (H3 h' A1 A2). destruct (q_pres h), (q_pres h'); cbn in *; auto; lia.
    - intros h Hh. apply K in Hh as (A1 & A2). rewrite (H h A1) in A2. discriminate.
  Qed.
End HvT.

Section Thm.
  Context {F : Type} {N : Num F} {D : Type} {ED : EqD D} {BS : BSearch}.
  Hypothesis BSok : bsearch_ok BS.
  Local Notation rect := (rect F).
  Local Notation hazard := (hazard F D).
  Local Notation entity := (entity D).
  Local Notation poly := (poly F).
  Local Notation cde := (cde F D).
  Local Notation snapshot := (snapshot F D).
  Local Notation fact := (fact F D).
  Local Notation question := (question F D).
  Local Notation op := (op F D).

  Lemma engine_inv : forall bb st lvl n (ops : list op) c sn, valid st ops ->
    engine bb st lvl n ops = Ok (c, sn) ->
    inv lvl bb c /\ Permutation (registered c) (facts st ops) /\ NoDup (map o_ent (registered c)).
  Proof.
    intros bb st lvl n ops c sn (So & shp & V) E.
    pose proof (engine_related BSok lvl bb shp st n ops c sn So V E) as R.
    pose proof (rl_inv _ _ _ _ _ _ _ R) as I. split; [exact I|]. split.
    - apply (related_registered lvl bb shp st c sn _ R).
    - unfold registered. rewrite map_map. apply (inv_nodup_all lvl bb c I).
  Qed.

  Lemma ask_facts : forall bb st lvl n (ops : list op) c sn q, valid st ops ->
    engine bb st lvl n ops = Ok (c, sn) -> good_question q ->
    ask c q = Ok (answer lvl bb (facts st ops) q).
  Proof.
    intros bb st lvl n ops c sn q V E G. destruct (engine_inv _ _ _ _ _ _ _ V E) as (I & P & ND).
    rewrite (ask_answer lvl bb c q I G). f_equal. apply answer_perm; assumption.
  Qed.

  Lemma nodup_facts : forall bb st lvl n (ops : list op) c sn, valid st ops ->
    engine bb st lvl n ops = Ok (c, sn) -> NoDup (map f_ent (facts st ops)).
  Proof.
    intros bb st lvl n ops c sn V E. destruct (engine_inv _ _ _ _ _ _ _ V E) as (I & P & ND).
    eapply Permutation_NoDup; [|exact ND]. apply (Permutation_map o_ent) in P. exact P.
  Qed.

  (** C02 *)
  Lemma history_independent : forall bb lvl st ops n c sn st' ops' n' c' sn' q,
    valid st ops -> engine bb st lvl n ops = Ok (c, sn) ->
    valid st' ops' -> engine bb st' lvl n' ops' = Ok (c', sn') ->
    Permutation (facts st ops) (facts st' ops') -> good_question q ->
    exists t, ask c q = Ok t /\ ask c' q = Ok t.
  Proof.
    intros bb lvl st ops n c sn st' ops' n' c' sn' q V E V' E' P G.
    rewrite (ask_facts _ _ _ _ _ _ _ q V E G), (ask_facts _ _ _ _ _ _ _ q V' E' G).
    eexists. split; [reflexivity|]. f_equal. symmetry. apply answer_perm; [|exact P].
    apply (nodup_facts _ _ _ _ _ _ _ V E).
  Qed.

  (** the fresh engine *)
  Lemma fresh_facts : forall (hs : list hazard), dynamic_facts (map (fun h => OReg h) hs) = rev (map fact_of hs).
  Proof.
    intros hs. unfold dynamic_facts.
    assert (K : forall (l : list hazard) A sv,
              fst (fold_left astep (map (fun h => OReg h) l) (A, sv)) = rev (map fact_of l) ++ A).
    { induction l as [|h l IH]; intros A sv; cbn [map fold_left]; [reflexivity|].
      cbn [astep rev]. rewrite <- app_assoc. apply IH. }
    rewrite K. apply app_nil_r.
  Qed.
  Lemma dyn_shape : forall bb lvl n (st : list hazard) ops c sn, valid st ops ->
    engine bb st lvl n ops = Ok (c, sn) ->
    Forall (fun h : hazard => good_poly (a_obj (h_shape h))) (cd_dyn c) /\ NoDup (map (@h_ent F D) (st ++ cd_dyn c)) /\
    cd_static c = st.
  Proof.
    intros bb lvl n st ops c sn (So & shp & V) E.
    pose proof (engine_related BSok lvl bb shp st n ops c sn So V E) as R.
    pose proof (rl_inv _ _ _ _ _ _ _ R) as I. pose proof (rl_static _ _ _ _ _ _ _ R) as Es.
    split; [|split; [|exact Es]].
    - rewrite Forall_forall. intros h Hh. apply (inv_wf_all lvl bb c h I). apply in_or_app. auto.
    - rewrite <- Es. apply (inv_nodup_all lvl bb c I).
  Qed.
  Lemma fresh_ok : forall shp (st hs : list hazard) A sv,
    Forall (fun h : hazard => good_poly (a_obj (h_shape h))) hs -> Forall (denotes shp) hs ->
    NoDup (map (@h_ent F D) (st ++ hs)) ->
    (forall h : hazard, In h hs -> ~ In (h_ent h) (map f_ent A)) ->
    ops_ok shp st (A, sv) (map (fun h => OReg h) hs).
  Proof.
    intros shp st hs. induction hs as [|h hs IH]; intros A sv W Dn ND Fr; cbn [map ops_ok]; [exact I|].
    inversion W; subst. inversion Dn; subst. rewrite map_app in ND. cbn [map] in ND.
    pose proof (NoDup_remove _ _ _ ND) as (ND1 & ND2).
    split.
    - cbn [op_ok fst]. repeat split; auto.
      + intros X. apply ND2, in_or_app; auto.
      + apply Fr; left; reflexivity.
    - cbn [astep]. apply IH; auto.
      + rewrite map_app. exact ND1.
      + intros k Hk X. cbn [map] in X. destruct X as [X|X]; [|apply (Fr k); [right; exact Hk|exact X]].
        apply ND2, in_or_app. right. cbn in X. rewrite X. apply in_map, Hk.
  Qed.
  Lemma as_fresh : forall bb lvl n st ops c sn, valid st ops ->
    engine bb st lvl n ops = Ok (c, sn) ->
    exists f fsn, engine bb st lvl 0 (map (fun h => OReg h) (cd_dyn c)) = Ok (f, fsn) /\
      (forall q, good_question q -> exists t, ask c q = Ok t /\ ask f q = Ok t).
  Proof.
    intros bb lvl n st ops c sn V E. pose proof V as (So & shp & Vo).
    pose proof (engine_related BSok lvl bb shp st n ops c sn So Vo E) as R.
    destruct (dyn_shape _ _ _ _ _ _ _ V E) as (W & ND & Es).
    assert (Vf : ops_ok shp st ([], []) (map (fun h => OReg h) (cd_dyn c))).
    { apply fresh_ok; auto. pose proof (rl_coh _ _ _ _ _ _ _ R) as Co. apply Forall_app in Co. apply Co. }
    destruct (engine_total BSok lvl bb shp st _ So Vf) as (f & fsn & Ef).
    exists f, fsn. split; [exact Ef|]. intros q G.
    eapply history_independent; [exact V|exact E| |exact Ef| |exact G].
    - split; [exact So|]. exists shp. exact Vf.
    - unfold facts. rewrite fresh_facts. apply Permutation_app_head.
      pose proof (rl_facts _ _ _ _ _ _ _ R) as Pf. unfold dynamic_facts.
      rewrite <- Permutation_rev. symmetry. exact Pf.
  Qed.

  (** C03 *)
  Lemma single_valid : forall (h : hazard), good_poly (a_obj (h_shape h)) -> valid [] [OReg h].
  Proof.
    intros h W. split; [split; constructor|]. exists (fun _ => (a_obj (h_shape h), h_active h)).
    cbn. unfold denotes. repeat split; auto.
  Qed.
  Lemma responsible : forall bb lvl n st ops c sn q irr e, valid st ops ->
    engine bb st lvl n ops = Ok (c, sn) -> reported c q irr = Ok (Some e) ->
    exists h : hazard, In h (cd_static c ++ cd_dyn c) /\ In (fact_of h) (facts st ops) /\ h_ent h = e /\
      ~ In e irr /\
      exists c1 sn1, engine bb [] lvl 0 [OReg h] = Ok (c1, sn1) /\ reported c1 q [] = Ok (Some e).
  Proof.
    intros bb lvl n st ops c sn q irr e V E Rp.
    destruct (engine_inv _ _ _ _ _ _ _ V E) as (I & P & ND).
    destruct (collides_spec lvl bb c q irr I) as (o & Eo & _ & Re). unfold reported in *.
    rewrite Eo in Rp. injection Rp as ->. destruct (Re e eq_refl) as (h & Hh & Ee & Ni & Hit).
    exists h. split; [exact Hh|]. split.
    { eapply Permutation_in; [exact P|]. apply in_map. exact Hh. }
    split; [exact Ee|]. split; [exact Ni|].
    pose proof (inv_wf_all lvl bb c h I Hh) as W.
    destruct (single_valid h W) as (So1 & shp1 & V1).
    destruct (engine_total BSok lvl bb shp1 [] [OReg h] So1 V1) as (c1 & sn1 & E1).
    exists c1, sn1. split; [exact E1|].
    destruct (engine_inv bb [] lvl 0 [OReg h] c1 sn1 (single_valid h W) E1) as (I1 & P1 & _).
    destruct (collides_spec lvl bb c1 q [] I1) as (o1 & Eo1 & S1 & Re1).
    cbn in P1. apply Permutation_sym, Permutation_length_1_inv in P1.
    rewrite P1 in S1. cbn [existsb] in S1. change (fact_of h) with (obs_of h) in S1.
    rewrite Hit in S1. cbn in S1. rewrite Eo1. destruct o1 as [e1|]; [|discriminate]. f_equal. f_equal.
    destruct (Re1 e1 eq_refl) as (h1 & Hh1 & <- & _). apply (in_map obs_of) in Hh1.
    change (map obs_of (all_hazards c1)) with (registered c1) in Hh1. rewrite P1 in Hh1.
    destruct Hh1 as [X|[]]. injection X as X _ _. congruence.
  Qed.

  (** C04 *)
  Lemma with_good : forall (q : question) irr, good_question q -> good_question (with_irr q irr).
  Proof. intros [s i|s t i|s t buf i|q i|p e|e i|k i] irr G; exact G. Qed.
  Lemma ignore_absent : forall bb lvl st ops n c sn st' ops' n' c' sn' q irr,
    valid st ops -> engine bb st lvl n ops = Ok (c, sn) ->
    valid st' ops' -> engine bb st' lvl n' ops' = Ok (c', sn') ->
    Permutation (filter (fun f => negb (memb ent_eqb (f_ent f) irr)) (facts st ops)) (facts st' ops') ->
    good_question q -> has_irr q = true ->
    exists t, ask c (with_irr q irr) = Ok t /\ ask c' (with_irr q []) = Ok t.
  Proof.
    intros bb lvl st ops n c sn st' ops' n' c' sn' q irr V E V' E' P G Hi.
    rewrite (ask_facts _ _ _ _ _ _ _ _ V E (with_good q irr G)),
            (ask_facts _ _ _ _ _ _ _ _ V' E' (with_good q [] G)).
    eexists. split; [reflexivity|]. f_equal. rewrite (answer_ignore lvl bb q irr _ Hi).
    symmetry. apply answer_perm; [|exact P].
    pose proof (nodup_facts _ _ _ _ _ _ _ V' E') as ND'.
    eapply Permutation_NoDup; [|exact ND']. symmetry. apply (Permutation_map o_ent) in P. exact P.
  Qed.

  (** C05 *)
  Lemma monotone : forall bb lvl st ops n c sn st' ops' n' c' sn' q irr irr',
    valid st ops -> engine bb st lvl n ops = Ok (c, sn) ->
    valid st' ops' -> engine bb st' lvl n' ops' = Ok (c', sn') ->
    incl (facts st ops) (facts st' ops') -> incl irr' irr -> good_question q ->
    exists t t', ask c (with_irr q irr) = Ok t /\ ask c' (with_irr q irr') = Ok t' /\ tri_le t t'.
  Proof.
    intros bb lvl st ops n c sn st' ops' n' c' sn' q irr irr' V E V' E' Inc Inc' G.
    rewrite (ask_facts _ _ _ _ _ _ _ _ V E (with_good q irr G)),
            (ask_facts _ _ _ _ _ _ _ _ V' E' (with_good q irr' G)).
    eexists. eexists. split; [reflexivity|]. split; [reflexivity|].
    apply answer_mono; auto. apply (nodup_facts _ _ _ _ _ _ _ V' E').
  Qed.

  (** C06 *)
  Lemma instant_fold : forall (ops : list op) a, fold_left astep (instant ops) a = fold_left astep ops a.
  Proof.
    induction ops as [|o ops IH]; intros [A sv]; [reflexivity|].
    destruct o as [h|e b| | | |k]; cbn [instant fold_left]; rewrite IH; reflexivity.
  Qed.
  Lemma instant_facts : forall st (ops : list op), facts st (instant ops) = facts st ops.
  Proof. intros. unfold facts, dynamic_facts. rewrite instant_fold. reflexivity. Qed.
  Lemma instant_ok : forall shp st (ops : list op) a, ops_ok shp st a ops -> ops_ok shp st a (instant ops).
  Proof.
    induction ops as [|o ops IH]; intros [A sv] V; [exact V|]. destruct V as (V1 & V2).
    destruct o as [h|e b| | | |k]; cbn [instant ops_ok]; try (split; [exact V1|]); apply IH; exact V2.
  Qed.
  Lemma instant_valid : forall st (ops : list op), valid st ops -> valid st (instant ops).
  Proof. intros st ops (So & shp & V). split; [exact So|]. exists shp. apply instant_ok, V. Qed.
  Lemma deferred_immediate : forall bb lvl n st ops c sn n' c' sn' q, valid st ops ->
    engine bb st lvl n ops = Ok (c, sn) ->
    engine bb st lvl n' (instant ops) = Ok (c', sn') -> good_question q ->
    exists t, ask c q = Ok t /\ ask c' q = Ok t.
  Proof.
    intros bb lvl n st ops c sn n' c' sn' q V E E' G.
    eapply history_independent; [exact V|exact E|apply instant_valid, V|exact E'| |exact G].
    rewrite instant_facts. reflexivity.
  Qed.

  (** C07 *)
  Definition hkey (o : option (hpg F D)) : option (rect * F) :=
    option_map (fun g => (hg_bbox g, hg_rad g)) o.
  Lemma opt_hpg_key : forall (f : hpg F D -> res (hpg F D)) o o',
    (forall g g', f g = Ok g' -> hg_bbox g' = hg_bbox g /\ hg_rad g' = hg_rad g) ->
    opt_hpg f o = Ok o' -> hkey o' = hkey o.
  Proof.
    intros f [g|] o' H E; cbn [opt_hpg] in E.
    - apply rbind_ok in E as (g' & E & X). injection X as <-. cbn. destruct (H g g' E) as (-> & ->). reflexivity.
    - injection E as <-. reflexivity.
  Qed.
  Lemma register_key : forall (g g' : hpg F D) h, hpg_register g h = Ok g' ->
    hg_bbox g' = hg_bbox g /\ hg_rad g' = hg_rad g.
  Proof.
    intros g g' h E. unfold hpg_register in E. apply rbind_ok in E as (s & _ & E).
    apply rbind_ok in E as (b & _ & E). apply rbind_ok in E as ([gr b'] & _ & E).
    injection E as <-. auto.
  Qed.
  Lemma deregister_key : forall (g g' : hpg F D) e r b, hpg_deregister g e r b = Ok g' ->
    hg_bbox g' = hg_bbox g /\ hg_rad g' = hg_rad g.
  Proof.
    intros g g' e r [|] E; unfold hpg_deregister in E.
    - apply rbind_ok in E as (gr & _ & E). injection E as <-. auto.
    - injection E as <-. auto.
  Qed.
  Lemma flush_key : forall (g g' : hpg F D) r, hpg_flush g r = Ok g' ->
    hg_bbox g' = hg_bbox g /\ hg_rad g' = hg_rad g /\ hg_unc g' = [].
  Proof.
    intros g g' r E. unfold hpg_flush, hpg_dirty in E. destruct (hg_unc g) eqn:U.
    - injection E as <-. auto.
    - apply rbind_ok in E as (gr & _ & E). injection E as <-. auto.
  Qed.
  Lemma restore_key : forall (g g' : hpg F D) gr, hpg_restore g gr = Ok g' ->
    hg_bbox g' = hg_bbox g /\ hg_rad g' = hg_rad g /\ hg_unc g' = [] /\ hg_grid g' = gr.
  Proof.
    intros g g' gr E. unfold hpg_restore in E. destruct (Nat.eqb _ _); [|discriminate].
    injection E as <-. auto.
  Qed.

  Lemma commit_key : forall (c c' : cde), cde_commit c = Ok c' ->
    hkey (cd_hpg c') = hkey (cd_hpg c) /\ forall g, cd_hpg c' = Some g -> hg_unc g = [].
  Proof.
    intros c c' E. unfold cde_commit in E. apply rbind_ok in E as (g & E & X). injection X as <-. cbn [cd_hpg].
    split.
    - eapply opt_hpg_key; [|exact E]. intros g0 g1 X. apply flush_key in X. tauto.
    - intros g0 ->. destruct (cd_hpg c); cbn [opt_hpg] in E; [|discriminate].
      apply rbind_ok in E as (g1 & E & X). injection X as <-. apply flush_key in E. tauto.
  Qed.

  Lemma step_key : forall (c c' : cde) sn sn' o, step (c, sn) o = Ok (c', sn') ->
    hkey (cd_hpg c') = hkey (cd_hpg c) /\ exists t, sn' = sn ++ t /\ length t = snaps [o].
  Proof.
    intros c c' sn sn' o E.
    assert (K0 : exists t, sn = sn ++ t /\ length t = 0) by (exists []; rewrite app_nil_r; auto).
    destruct o as [h|e b| | | |k]; cbn [step snaps] in *;
      apply rbind_ok in E as (c1 & E & X).
    - injection X as <- <-. split; [|exact K0]. unfold cde_register in E.
      apply rbind_ok in E as ([[qt unc] h'] & _ & E). apply rbind_ok in E as (g & E & X). injection X as <-.
      cbn [cd_hpg]. eapply opt_hpg_key; [|exact E]. intros g0 g1 X. apply register_key in X. exact X.
    - injection X as <- <-. split; [|exact K0]. unfold cde_deregister in E.
      apply rbind_ok in E as (i & _ & E). apply rbind_ok in E as ([h dyn] & _ & E).
      destruct b; apply rbind_ok in E as (g & E & X); injection X as <-; cbn [cd_hpg];
        (eapply opt_hpg_key; [|exact E]); intros g0 g1 X; apply deregister_key in X; exact X.
    - injection X as <- <-. split; [|exact K0]. apply commit_key in E. apply E.
    - injection X as <- <-. split; [|exact K0]. unfold cde_flush in E.
      apply rbind_ok in E as (g & E & X). injection X as <-. cbn [cd_hpg].
      eapply opt_hpg_key; [|exact E]. intros g0 g1 X. apply flush_key in X. tauto.
    - destruct c1 as [s' c1]. injection X as <- <-. unfold cde_snapshot in E.
      apply rbind_ok in E as (c2 & E & X). apply rbind_ok in X as (u & _ & X). injection X as _ <-.
      split; [apply commit_key in E; apply E|]. eexists. split; [reflexivity|reflexivity].
    - apply rbind_ok in X as (c2 & X & Y). injection Y as <- <-. split; [|exact K0].
      unfold cde_restore in X. destruct (fold_left restore_split _ _) as [rem add].
      apply rbind_ok in X as ([qt1 dyn1] & _ & X). apply rbind_ok in X as ([[qt2 dyn2] add2] & _ & X).
      apply rbind_ok in X as ([qt3 dyn3] & _ & X). apply rbind_ok in X as (g & X & Y).
      injection Y as <-. cbn [cd_hpg]. eapply opt_hpg_key; [|exact X]. intros g0 g1 Y.
      apply rbind_ok in Y as (gr & _ & Y). apply restore_key in Y. tauto.
  Qed.
  Lemma snaps_app : forall (o o' : list op), snaps (o ++ o') = snaps o + snaps o'.
  Proof. induction o as [|x o IH]; intros o'; [reflexivity|]. destruct x; cbn [app snaps]; rewrite IH; reflexivity. Qed.
  Lemma run_key : forall ops (c c' : cde) sn sn', rfold step ops (c, sn) = Ok (c', sn') ->
    hkey (cd_hpg c') = hkey (cd_hpg c) /\ exists t, sn' = sn ++ t /\ length t = snaps ops.
  Proof.
    induction ops as [|o ops IH]; intros c c' sn sn' E; cbn [rfold] in E.
    - injection E as <- <-. split; [reflexivity|]. exists []. rewrite app_nil_r. auto.
    - apply rbind_ok in E as ([c1 sn1] & E1 & E2). destruct (step_key _ _ _ _ _ E1) as (K1 & t1 & -> & L1).
      destruct (IH _ _ _ _ E2) as (K2 & t2 & -> & L2). split; [congruence|].
      exists (t1 ++ t2). rewrite app_assoc. split; [reflexivity|].
      rewrite app_length, L1, L2, <- (snaps_app [o] ops). reflexivity.
  Qed.

  Lemma rfold_app : forall {A B} (f : A -> B -> res A) l l' a,
    rfold f (l ++ l') a = (b <- rfold f l a ;; rfold f l' b).
  Proof.
    intros A B f. induction l as [|x l IH]; intros l' a; cbn [app rfold rbind]; [reflexivity|].
    destruct (f a x); cbn [rbind]; [apply IH|reflexivity].
  Qed.
  Lemma ops_ok_app : forall shp st (l l' : list op) a,
    ops_ok shp st a (l ++ l') <-> ops_ok shp st a l /\ ops_ok shp st (fold_left astep l a) l'.
  Proof.
    intros shp st. induction l as [|o l IH]; intros l' a; cbn [app ops_ok fold_left]; [tauto|].
    rewrite IH. tauto.
  Qed.
  Lemma valid_prefix : forall st (l l' : list op), valid st (l ++ l') -> valid st l.
  Proof. intros st l l' (So & shp & V). apply ops_ok_app in V. split; [exact So|]. exists shp. apply V. Qed.

  Lemma astep_saved : forall (ops : list op) A sv, exists sv', snd (fold_left astep ops (A, sv)) = sv ++ sv' /\
    length sv' = snaps ops.
  Proof.
    induction ops as [|o ops IH]; intros A sv; cbn [fold_left].
    - exists []. rewrite app_nil_r. auto.
    - destruct o; cbn [astep snaps]; try apply IH.
      destruct (IH A (sv ++ [A])) as (sv' & E & L). exists (A :: sv'). rewrite <- app_assoc in E.
      split; [exact E|]. cbn [length]. congruence.
  Qed.

  Lemma restored_facts : forall st (ops1 ops2 : list op),
    facts st (ops1 ++ OSnap :: ops2 ++ [ORestore (snaps ops1)]) = facts st (ops1 ++ [OSnap]).
  Proof.
    intros st ops1 ops2. unfold facts, dynamic_facts. f_equal.
    change (OSnap :: ops2 ++ [ORestore (snaps ops1)]) with ([OSnap] ++ ops2 ++ [ORestore (snaps ops1)]).
    rewrite app_assoc. rewrite !fold_left_app. cbn [fold_left].
    destruct (astep_saved ops1 [] []) as (sv1 & E1 & L1).
    destruct (fold_left astep ops1 ([], [])) as [A sv]. cbn [snd] in E1. subst sv. cbn [app] in *. cbn [astep].
    destruct (astep_saved ops2 A (sv1 ++ [A])) as (sv2 & E2 & L2).
    destruct (fold_left astep ops2 (A, sv1 ++ [A])) as [B sv]. cbn [snd] in E2. subst sv. cbn [astep fst].
    rewrite <- app_assoc, app_nth2 by lia. replace (_ - _) with 0 by lia. reflexivity.
  Qed.

  Lemma snapshot_restored : forall bb lvl n st ops1 ops2 c1 sn1 c2 sn2,
    valid st (ops1 ++ OSnap :: ops2 ++ [ORestore (snaps ops1)]) ->
    engine bb st lvl n (ops1 ++ [OSnap]) = Ok (c1, sn1) ->
    engine bb st lvl n (ops1 ++ OSnap :: ops2 ++ [ORestore (snaps ops1)]) = Ok (c2, sn2) ->
    Permutation (map fact_of (cd_dyn c2)) (map fact_of (cd_dyn c1)) /\ cd_static c2 = cd_static c1 /\
    cd_hpg c2 = cd_hpg c1 /\ cd_unc c2 = [] /\
    (forall q, good_question q -> exists t, ask c1 q = Ok t /\ ask c2 q = Ok t).
  Proof.
    intros bb lvl n st ops1 ops2 c1 sn1 c2 sn2 V E1 E2.
    assert (V1 : valid st (ops1 ++ [OSnap])).
    { apply valid_prefix with (ops2 ++ [ORestore (snaps ops1)]). rewrite <- app_assoc. exact V. }
    assert (Pf : Permutation (map fact_of (cd_dyn c2)) (map fact_of (cd_dyn c1))).
    { destruct (engine_inv _ _ _ _ _ _ _ V1 E1) as (_ & P1 & _).
      destruct (engine_inv _ _ _ _ _ _ _ V E2) as (_ & P2 & _).
      rewrite restored_facts in P2. rewrite <- P1 in P2. unfold registered, all_hazards in P2.
      rewrite !map_app in P2. destruct (dyn_shape _ _ _ _ _ _ _ V1 E1) as (_ & _ & <-).
      destruct (dyn_shape _ _ _ _ _ _ _ V E2) as (_ & _ & X). rewrite X in P2.
      apply Permutation_app_inv_l in P2. exact P2. }
    split; [exact Pf|]. split.
    { destruct (dyn_shape _ _ _ _ _ _ _ V1 E1) as (_ & _ & ->).
      destruct (dyn_shape _ _ _ _ _ _ _ V E2) as (_ & _ & ->). reflexivity. }
    assert (Q : forall q, good_question q -> exists t, ask c1 q = Ok t /\ ask c2 q = Ok t).
    { intros q G. eapply history_independent; [exact V1|exact E1|exact V|exact E2| |exact G].
      rewrite restored_facts. reflexivity. }
    unfold engine in E1, E2. apply rbind_ok in E1 as (c0 & E0 & E1). rewrite E0 in E2. cbn [rbind] in E2.
    change (OSnap :: ops2 ++ [ORestore (snaps ops1)]) with ([OSnap] ++ ops2 ++ [ORestore (snaps ops1)]) in E2.
    rewrite rfold_app in E1, E2. apply rbind_ok in E1 as ([ca sa] & Ea & E1). rewrite Ea in E2.
    cbn [rbind] in E2. rewrite rfold_app in E2.
    change (rfold step [OSnap] (ca, sa)) with (b <- step (ca, sa) OSnap ;; Ok b) in E1, E2.
    apply rbind_ok in E1 as ([cx sx] & Ex & X). injection X as -> ->. rewrite Ex in E2. cbn [rbind] in E2.
    rewrite rfold_app in E2. apply rbind_ok in E2 as ([cb sb] & Eb & E2).
    change (rfold step [ORestore (snaps ops1)] (cb, sb)) with (b <- step (cb, sb) (ORestore (snaps ops1)) ;; Ok b) in E2.
    apply rbind_ok in E2 as ([cy sy] & Ey & X). injection X as -> ->.
    destruct (run_key _ _ _ _ _ Ea) as (_ & ta & Esa & La). cbn [app] in Esa. subst ta.
    destruct (run_key _ _ _ _ _ Eb) as (Kb & tb & Esb & _). subst sb.
    cbn [step] in Ex. apply rbind_ok in Ex as ([s' c'] & Ex & X). injection X as <- <-.
    unfold cde_snapshot in Ex. apply rbind_ok in Ex as (c'' & Ec & Ex). apply rbind_ok in Ex as (u & _ & Ex).
    injection Ex as <- <-. destruct (commit_key _ _ Ec) as (_ & Un).
    cbn [step] in Ey. rewrite nth_error_app1 in Ey by (rewrite app_length; cbn [length]; lia).
    rewrite nth_error_app2 in Ey by lia. rewrite La, Nat.sub_diag in Ey. cbn [nth_error expect rbind] in Ey.
    apply rbind_ok in Ey as (cr & Er & X). injection X as -> _.
    unfold cde_restore in Er. destruct (fold_left restore_split _ _) as [rem add].
    apply rbind_ok in Er as ([qt1 dyn1] & _ & X). apply rbind_ok in X as ([[qt2 dyn2] add2] & _ & X).
    apply rbind_ok in X as ([qt3 dyn3] & _ & X). apply rbind_ok in X as (g & X & Y).
    injection Y as <-. cbn [cd_hpg cd_unc]. split; [|split; [reflexivity|exact Q]].
    cbn [sn_grid] in X. destruct (cd_hpg cb) as [gb|] eqn:Hb; cbn [opt_hpg] in X.
    - apply rbind_ok in X as (g' & X & Y). injection Y as <-. apply rbind_ok in X as (gr & Egr & X).
      apply restore_key in X as (K1 & K2 & K3 & K4).
      cbn in Kb. destruct (cd_hpg c'') as [g1|] eqn:H1; [|discriminate]. cbn in Kb.
      injection Kb as B1 B2. cbn in Egr. injection Egr as <-. pose proof (Un g1 eq_refl) as U1.
      f_equal. destruct g' as [a1 a2 a3 a4], g1 as [b1 b2 b3 b4]. cbn in *. congruence.
    - injection X as <-. cbn in Kb. destruct (cd_hpg c'') as [g1|]; [discriminate|reflexivity].
  Qed.

  (** C08 *)
  Definition no_grid (c : cde) : cde := Cde (cd_qt c) (cd_static c) (cd_dyn c) None (cd_bbox c) (cd_unc c).
  Lemma collides_total : forall bb lvl n st ops c sn q irr, valid st ops ->
    engine bb st lvl n ops = Ok (c, sn) -> exists o, reported c q irr = Ok o.
  Proof.
    intros bb lvl n st ops c sn q irr V E. destruct (engine_inv _ _ _ _ _ _ _ V E) as (I & _).
    destruct (collides_spec lvl bb c q irr I) as (o & Eo & _). eauto.
  Qed.
  Lemma questions_total : forall bb lvl n st ops c sn q, valid st ops ->
    engine bb st lvl n ops = Ok (c, sn) -> good_question q -> exists t, ask c q = Ok t.
  Proof. intros. eexists. eapply ask_facts; eassumption. Qed.
  Lemma updates_total : forall bb lvl st ops, valid st ops -> exists c sn, engine bb st lvl 0 ops = Ok (c, sn).
  Proof. intros bb lvl st ops (So & shp & V). eapply engine_total; eassumption. Qed.
  Lemma updates_no_grid : forall bb lvl n st ops o c sn, valid st (ops ++ [o]) ->
    engine bb st lvl n ops = Ok (c, sn) -> exists c' sn', step (no_grid c, sn) o = Ok (c', sn').
  Proof.
    intros bb lvl n st ops o c sn (So & shp & V) E. apply ops_ok_app in V as (V1 & V2).
    pose proof (engine_related BSok lvl bb shp st n ops c sn So V1 E) as R.
    assert (R' : related lvl bb shp st (no_grid c) sn (fold_left astep ops ([], []))).
    { destruct R as [I A1 A2 A3 A4 A5]. split; auto.
      unfold no_grid. rewrite (inv_bbox lvl bb c I). apply R_inv, inv_R, I. }
    cbn [ops_ok] in V2.
    destruct (step_total BSok lvl bb shp st (no_grid c) sn _ o R' (proj1 V2) eq_refl) as (c' & sn' & X & _).
    eauto.
  Qed.

  (** collections *)
  Definition khit (lvl : nat) (bb : rect) (k : collection F) (o : fact) : bool :=
    match k with
    | CollPoly s => poly_hit lvl bb s o
    | CollSurrogate s t => surr_hit lvl bb s t o
    | CollWithin q => ohits lvl bb q o
    end.
  Lemma collect_spec : forall bb lvl n st ops c sn k irr buf, valid st ops ->
    engine bb st lvl n ops = Ok (c, sn) -> good_collection k ->
    exists new, collect c k irr buf = Ok (buf ++ new) /\ NoDup new /\
      (forall e, In e new -> ~ In e buf /\ ~ In e irr /\
         ((exists o, In o (facts st ops) /\ f_ent o = e /\ khit lvl bb k o = true) \/
          (e = BinExterior /\ buf = [] /\ ~ centre_inside bb k))) /\
      ((exists o, In o (facts st ops) /\ ~ In (f_ent o) (buf ++ irr) /\ khit lvl bb k o = true) -> new <> []).
  Proof.
    intros bb lvl n st ops c sn k irr buf V E G. destruct (engine_inv _ _ _ _ _ _ _ V E) as (I & P & _).
    assert (H1 : forall f e, hit_in c f e -> exists o, In o (facts st ops) /\ f_ent o = e /\ f o = true).
    { intros f e (o & Ho & A). exists o. split; [eapply Permutation_in; eassumption|exact A]. }
    assert (H2 : forall f d, (exists o, In o (facts st ops) /\ ~ In (f_ent o) d /\ f o = true) -> some_hit c f d).
    { intros f d (o & Ho & A). exists o. split; [eapply Permutation_in; [symmetry|]; eassumption|exact A]. }
    destruct k as [s|s t|q]; cbn [collect khit good_collection centre_inside] in *.
    - destruct (collect_poly_spec lvl bb c s irr buf I G) as (new & -> & ND & A & M).
      exists new. repeat split; auto.
      + apply (A e H).
      + apply (A e H).
      + left. apply H1, (A e H).
    - destruct (collect_surrogate_spec lvl bb c s t irr buf I G) as (new & -> & ND & A & M).
      exists new. repeat split; auto.
      + apply (A e H).
      + apply (A e H).
      + left. apply H1, (A e H).
    - destruct (hazards_within_spec lvl bb c q irr buf I) as (new & -> & ND & A & M).
      exists new. repeat split; auto.
      + apply (A e H).
      + apply (A e H).
      + destruct (A e H) as (_ & _ & [X|(X1 & X2 & X3)]); [left; apply H1, X|].
        right. split; [exact X1|]. split; [exact X3|]. congruence.
  Qed.

  Lemma khit_answer : forall lvl bb k irr os, inside_box bb k ->
    answer lvl bb os (verdict_of k irr) = yn (existsb (fun o => rel irr o && khit lvl bb k o) os).
  Proof.
    intros lvl bb [s|s t|q] irr os Ib; cbn [verdict_of answer khit inside_box] in *.
    - rewrite (opoly_hit lvl bb s irr os Ib). reflexivity.
    - rewrite (osurr_hit lvl bb s t irr os). reflexivity.
    - reflexivity.
  Qed.

  (** C12 inside the box *)
  Lemma verdict_collect : forall bb lvl n st ops c sn k irr, valid st ops ->
    engine bb st lvl n ops = Ok (c, sn) -> good_collection k -> inside_box bb k -> centre_inside bb k ->
    exists b l, ask c (verdict_of k irr) = Ok (yn b) /\ collect c k irr [] = Ok l /\ (b = true <-> l <> []).
  Proof.
    intros bb lvl n st ops c sn k irr V E G Ib Ic.
    assert (Gq : good_question (verdict_of k irr)) by (destruct k; exact G).
    rewrite (ask_facts _ _ _ _ _ _ _ _ V E Gq), (khit_answer _ _ _ _ _ Ib).
    destruct (collect_spec _ _ _ _ _ _ _ k irr [] V E G) as (new & E1 & ND & A & M).
    eexists. exists new. split; [reflexivity|]. split; [exact E1|]. rewrite existsb_exists. split.
    - intros (o & Ho & K). apply andb_true_iff in K as (K1 & K2). apply M. exists o. split; [exact Ho|].
      split; [|exact K2]. cbn [app]. unfold rel in K1. apply negb_true_iff in K1.
      apply memb_ent_false in K1. exact K1.
    - intros X. destruct new as [|e new]; [congruence|].
      destruct (A e (or_introl eq_refl)) as (_ & Ni & [(o & Ho & <- & K)|(_ & _ & Y)]); [|contradiction].
      exists o. split; [exact Ho|]. rewrite K, andb_true_r. unfold rel. apply negb_true_iff.
      apply memb_ent_false. exact Ni.
  Qed.

  (** C09 *)
  Lemma single_khit : forall bb lvl k (h : hazard) c1 sn1, good_poly (a_obj (h_shape h)) ->
    engine bb [] lvl 0 [OReg h] = Ok (c1, sn1) -> good_collection k -> inside_box bb k ->
    ask c1 (verdict_of k []) = Ok (yn (khit lvl bb k (fact_of h))).
  Proof.
    intros bb lvl k h c1 sn1 W E G Ib.
    assert (Gq : good_question (verdict_of k ([] : list entity))) by (destruct k; exact G).
    rewrite (ask_facts _ _ _ _ _ _ _ _ (single_valid h W) E Gq), (khit_answer _ _ _ _ _ Ib).
    cbn. rewrite orb_false_r. reflexivity.
  Qed.

  Lemma tri_vs_bool : forall bb lvl n st ops c sn q irr, valid st ops ->
    engine bb st lvl n ops = Ok (c, sn) ->
    exists b t, ask c (AskQuery q irr) = Ok (yn b) /\ node_definitely (cd_qt c) (qy_rect q) irr = Ok t /\
      (t = TTrue -> b = true) /\ (b = true -> t <> TFalse).
  Proof.
    intros bb lvl n st ops c sn q irr V E. destruct (engine_inv _ _ _ _ _ _ _ V E) as (I & _ & _).
    rewrite (ask_answer lvl bb c (AskQuery q irr) I Logic.I). cbn [answer].
    rewrite (definitely_spec lvl bb c (qy_rect q) irr I).
    eexists. eexists. split; [reflexivity|]. split; [reflexivity|]. rewrite existsb_exists. split.
    - intros H. apply tri_all_true in H. apply in_map_iff in H as (o & Eo & Ho).
      apply filter_In in Ho as (Ho & Ro). exists o. split; [exact Ho|]. rewrite Ro. cbn [andb].
      apply (tri_hits q lvl bb _). exact Eo.
    - intros (o & Ho & K) Z. apply andb_true_iff in K as (K1 & K2). rewrite tri_all_false in Z.
      assert (X : otri lvl bb (qy_rect q) o = TFalse).
      { apply Z. apply in_map. apply filter_In. auto. }
      apply (tri_hits q lvl bb _) in X. unfold ohits in K2. congruence.
  Qed.

  Lemma single_tri : forall bb lvl n st ops c sn qr e, valid st ops ->
    engine bb st lvl n ops = Ok (c, sn) ->
    exists t, node_definitely_with (cd_qt c) qr e = Ok t /\
      node_definitely (cd_qt c) qr
        (filter (fun x => negb (ent_eqb x e)) (map f_ent (facts st ops))) = Ok t.
  Proof.
    intros bb lvl n st ops c sn qr e V E. destruct (engine_inv _ _ _ _ _ _ _ V E) as (I & P & ND).
    rewrite (definitely_with_spec lvl bb c qr e I), (definitely_spec lvl bb c qr _ I).
    eexists. split; [reflexivity|]. f_equal.
    rewrite (tri_all_perm _ _ (Permutation_map _ (perm_filter _ _ _ P))).
    rewrite (find_perm _ _ e P ND).
    assert (ND' : NoDup (map o_ent (facts st ops))).
    { eapply Permutation_NoDup; [|exact ND]. apply Permutation_map, P. }
    set (os := facts st ops) in *.
    assert (K : forall l : list fact, (forall o, In o l -> In o os) -> NoDup (map o_ent l) ->
       tri_all (map (otri lvl bb qr) (filter (rel (filter (fun x => negb (ent_eqb x e)) (map f_ent os))) l)) =
       match find (fun o => ent_eqb (o_ent o) e) l with Some o => otri lvl bb qr o | None => TFalse end).
    { induction l as [|o l IH]; intros Hin NDl; [reflexivity|]. cbn [filter find].
      cbn [map] in NDl. inversion NDl as [|? ? No NDl']; subst.
      destruct (ent_eqb (o_ent o) e) eqn:Eo.
      - apply ent_eqb_ok in Eo.
        assert (R0 : rel (filter (fun x => negb (ent_eqb x e)) (map f_ent os)) o = true).
        { unfold rel. apply negb_true_iff, memb_ent_false. intros X. apply filter_In in X as (_ & X).
          rewrite Eo, ent_eqb_refl in X. discriminate. }
        rewrite R0. cbn [map tri_all fold_right]. fold (tri_all (map (otri lvl bb qr)
          (filter (rel (filter (fun x => negb (ent_eqb x e)) (map f_ent os))) l))).
        rewrite IH; [|intros; apply Hin; right; assumption|exact NDl'].
        match goal with |- context [find ?f l] => destruct (find f l) as [o'|] eqn:Ef end.
        + apply find_some in Ef as (Ho' & X). apply ent_eqb_ok in X. exfalso. apply No.
          rewrite Eo, <- X. apply in_map, Ho'.
        + destruct (otri lvl bb qr o); reflexivity.
      - assert (R0 : rel (filter (fun x => negb (ent_eqb x e)) (map f_ent os)) o = false).
        { unfold rel. apply negb_false_iff, memb_ent. apply filter_In. split.
          - apply (in_map f_ent). apply Hin. left; reflexivity.
          - change (f_ent o) with (o_ent o). rewrite Eo. reflexivity. }
        rewrite R0. apply IH; [intros; apply Hin; right; assumption|exact NDl']. }
    apply K; auto.
  Qed.

  (** collections in terms of engines holding one hazard *)
  Lemma single_answer : forall bb lvl k (h : hazard) c1 sn1, good_poly (a_obj (h_shape h)) ->
    engine bb [] lvl 0 [OReg h] = Ok (c1, sn1) -> good_collection k -> khit lvl bb k (fact_of h) = true ->
    ask c1 (verdict_of k []) = Ok TTrue.
  Proof.
    intros bb lvl k h c1 sn1 W E G K.
    assert (Gq : good_question (verdict_of k ([] : list entity))) by (destruct k; exact G).
    rewrite (ask_facts _ _ _ _ _ _ _ _ (single_valid h W) E Gq). f_equal.
    destruct k as [s|s t|q].
    - cbn [verdict_of answer]. destruct (relation_to bb (p_bbox s)) eqn:Rl;
        try (unfold opoly; rewrite Rl; reflexivity).
      rewrite (opoly_hit lvl bb s [] _ Rl). cbn. cbn [khit] in K. rewrite K. reflexivity.
    - rewrite khit_answer by exact I. cbn [facts map app dynamic_facts fold_left astep fst existsb rel].
      cbn [memb existsb negb andb]. rewrite K. reflexivity.
    - rewrite khit_answer by exact I. cbn [facts map app dynamic_facts fold_left astep fst existsb rel].
      cbn [memb existsb negb andb]. rewrite K. reflexivity.
  Qed.
  Lemma fact_hazard : forall bb lvl n st ops c sn f, valid st ops -> engine bb st lvl n ops = Ok (c, sn) ->
    In f (facts st ops) ->
    exists h : hazard, In h (cd_static c ++ cd_dyn c) /\ fact_of h = f /\ good_poly (a_obj (h_shape h)).
  Proof.
    intros bb lvl n st ops c sn f V E Hf. destruct (engine_inv _ _ _ _ _ _ _ V E) as (I & P & _).
    apply (Permutation_in _ (Permutation_sym P)) in Hf. unfold registered in Hf.
    apply in_map_iff in Hf as (h & <- & Hh). exists h. split; [exact Hh|]. split; [reflexivity|].
    apply (inv_wf_all lvl bb c h I Hh).
  Qed.
  Lemma collect_sound : forall bb lvl n st ops c sn k irr buf, valid st ops ->
    engine bb st lvl n ops = Ok (c, sn) -> good_collection k ->
    exists new, collect c k irr buf = Ok (buf ++ new) /\ NoDup new /\
      (forall e, In e new -> ~ In e buf /\ ~ In e irr /\
         ((exists h : hazard, In h (cd_static c ++ cd_dyn c) /\ In (fact_of h) (facts st ops) /\ h_ent h = e /\
             exists c1 sn1, engine bb [] lvl 0 [OReg h] = Ok (c1, sn1) /\
                            ask c1 (verdict_of k []) = Ok TTrue) \/
          (e = BinExterior /\ buf = [] /\ ~ centre_inside bb k))).
  Proof.
    intros bb lvl n st ops c sn k irr buf V E G.
    destruct (collect_spec _ _ _ _ _ _ _ k irr buf V E G) as (new & E1 & ND & A & _).
    exists new. split; [exact E1|]. split; [exact ND|]. intros e He.
    destruct (A e He) as (A1 & A2 & A3). split; [exact A1|]. split; [exact A2|].
    destruct A3 as [(o & Ho & Eo & K)|A3]; [left|right; exact A3].
    destruct (fact_hazard _ _ _ _ _ _ _ _ V E Ho) as (h & Hh & <- & W).
    exists h. split; [exact Hh|]. split; [exact Ho|]. split; [exact Eo|].
    destruct (updates_total bb lvl [] [OReg h] (single_valid h W)) as (c1 & sn1 & Ec).
    exists c1, sn1. split; [exact Ec|]. eapply single_answer; eassumption.
  Qed.
  Lemma collect_fixpoint : forall bb lvl n st ops c sn k irr buf, valid st ops ->
    engine bb st lvl n ops = Ok (c, sn) -> good_collection k -> inside_box bb k ->
    collect c k irr buf = Ok buf ->
    forall (h : hazard) c1 sn1, In h (cd_static c ++ cd_dyn c) -> ~ In (h_ent h) (buf ++ irr) ->
      engine bb [] lvl 0 [OReg h] = Ok (c1, sn1) -> ask c1 (verdict_of k []) = Ok TFalse.
  Proof.
    intros bb lvl n st ops c sn k irr buf V E G Ib Ec h c1 sn1 Hh Ni E1.
    destruct (collect_spec _ _ _ _ _ _ _ k irr buf V E G) as (new & E2 & _ & _ & M).
    rewrite Ec in E2. injection E2 as E2. rewrite <- (app_nil_r buf) in E2 at 1. apply app_inv_head in E2.
    destruct (engine_inv _ _ _ _ _ _ _ V E) as (I & P & _).
    assert (W : good_poly (a_obj (h_shape h))) by exact (inv_wf_all lvl bb c h I Hh).
    rewrite (single_khit _ _ _ _ _ _ W E1 G Ib). f_equal.
    destruct (khit lvl bb k (fact_of h)) eqn:K; [|reflexivity]. exfalso. apply M; [|auto].
    exists (fact_of h). split; [|split; [exact Ni|exact K]].
    eapply Permutation_in; [exact P|]. apply (in_map obs_of). exact Hh.
  Qed.
End Thm.
