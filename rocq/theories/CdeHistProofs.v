(** Histories: the engine after a valid history answers as a function of the
    abstract set of hazards. *)
From Coq Require Import List Bool Arith ZArith Lia Permutation.
From Verif Require Import Base Num GeoModel HazardModel QTModel TransfModel HpgModel CdeModel
  BaseProofs HazVecProofs QTProofs CdeProofs CdeOpsProofs CdeSpec.
Import ListNotations.

Section CH.
  Context {F : Type} {N : Num F} {D : Type} {ED : EqD D} {BS : BSearch}.
  Hypothesis BSok : bsearch_ok BS.
  Local Notation rect := (rect F).
  Local Notation hazard := (hazard F D).
  Local Notation entity := (entity D).
  Local Notation poly := (poly F).
  Local Notation cde := (cde F D).
  Local Notation snapshot := (snapshot F D).
  Local Notation fact := (fact F D).
  Variable lvl : nat.
  Variable bb : rect.
  Variable shp : entity -> poly * bool.
  Variable st : list hazard.
  Local Notation inv := (@inv F N D lvl bb).

  (** fact of an entity according to [shp] *)
  Definition shpf (e : entity) : fact := (e, fst (shp e), snd (shp e)).
  Lemma denotes_fact : forall h, denotes shp h -> fact_of h = shpf (h_ent h).
  Proof. intros h H. unfold fact_of, shpf. rewrite H. reflexivity. Qed.

  Definition perm_facts (dyn : list hazard) (A : list fact) : Prop :=
    Permutation (map fact_of dyn) A.

  Record related (c : cde) (sn : list snapshot) (a : list fact * list (list fact)) : Prop := {
    rl_inv : inv c;
    rl_static : cd_static c = st;
    rl_facts : Permutation (map fact_of (cd_dyn c)) (fst a);
    rl_coh : Forall (denotes shp) (cd_dyn c ++ cd_unc c);
    rl_snaps : Forall2 (fun s A => Permutation (map fact_of (sn_dyn s)) A) sn (snd a);
    rl_snap_ok : Forall (fun s => snap_ok st s /\ Forall (denotes shp) (sn_dyn s)) sn
  }.

  Lemma facts_ents : forall (l : list hazard), map f_ent (map fact_of l) = ents l.
  Proof. intros. rewrite map_map. reflexivity. Qed.
  Lemma perm_ents : forall (dyn : list hazard) (A : list fact),
    Permutation (map fact_of dyn) A -> Permutation (ents dyn) (map f_ent A).
  Proof. intros dyn A P. apply (Permutation_map f_ent) in P. rewrite facts_ents in P. exact P. Qed.

  Lemma coherent_perm : forall l l' : list hazard, Forall (denotes shp) l -> Forall (denotes shp) l' ->
    Permutation (ents l) (ents l') -> Permutation (map fact_of l) (map fact_of l').
  Proof.
    intros l l' H H' P.
    assert (K : forall l : list hazard, Forall (denotes shp) l -> map fact_of l = map shpf (ents l)).
    { clear. intros l H. unfold ents. rewrite map_map. apply map_ext_in. intros h Hh.
      apply denotes_fact. rewrite Forall_forall in H. apply H, Hh. }
    rewrite (K l H), (K l' H'). apply Permutation_map, P.
  Qed.

  Lemma without_perm : forall (h : hazard) dyn A, NoDup (ents (h :: dyn)) ->
    Permutation (map fact_of (h :: dyn)) A -> Permutation (map fact_of dyn) (without (h_ent h) A).
  Proof.
    intros h dyn A ND P. unfold without. rewrite <- (perm_filter _ _ _ P).
    cbn [map filter]. change (f_ent (fact_of h)) with (h_ent h). rewrite ent_eqb_refl. cbn [negb].
    rewrite filter_id; [reflexivity|]. intros x Hx. apply in_map_iff in Hx as (y & <- & Hy).
    change (f_ent (fact_of y)) with (h_ent y). cbn [ents map] in ND. inversion ND as [|? ? Nh _]; subst.
    destruct (ent_eqb (h_ent y) (h_ent h)) eqn:E; [|reflexivity].
    apply ent_eqb_ok in E. exfalso. apply Nh. rewrite <- E. apply in_map, Hy.
  Qed.

  Lemma opt_hpg_ok : forall {A} (f : hpg F D -> res (hpg F D)) o (k : option (hpg F D) -> A) r,
    (g <- opt_hpg f o ;; Ok (k g)) = Ok r -> exists g, r = k g /\ opt_hpg f o = Ok g.
  Proof. intros A f o k r H. apply rbind_ok in H as (g & E & H). injection H as <-. eauto. Qed.

  Lemma opt_hpg_none : forall f : hpg F D -> res (hpg F D), opt_hpg f None = Ok None.
  Proof. reflexivity. Qed.

  Lemma dyn_nodup : forall c, inv c -> NoDup (ents (cd_dyn c)).
  Proof.
    intros c I. pose proof (inv_nodup _ _ _ I) as ND. unfold stored in ND. rewrite !map_app in ND.
    apply NoDup_app_r in ND. apply NoDup_app_l in ND. exact ND.
  Qed.

  Lemma R_snap : forall qt dyn (g : option (hpg F D)) gr, R lvl bb qt st dyn [] -> snap_ok st (Snap dyn gr).
  Proof.
    intros qt dyn g gr H. destruct H as [_ W ND]. rewrite app_nil_r in *. split; [|exact ND].
    apply Forall_app in W. apply W.
  Qed.

  Lemma rassert_ok : forall b (u : unit), rassert b = Ok u -> b = true.
  Proof. intros [|] u H; [reflexivity|discriminate]. Qed.

  Lemma F2_length : forall {A B} (P : A -> B -> Prop) l l', Forall2 P l l' -> length l = length l'.
  Proof. intros A B P l l' H. induction H; cbn; congruence. Qed.

  (** one step *)
  Lemma step_related : forall c sn a o c' sn', related c sn a -> op_ok shp st a o ->
    step (c, sn) o = Ok (c', sn') -> related c' sn' (astep a o).
  Proof.
    intros c sn [A sv] o c' sn' [I Es P Coh Sn So] V H. cbn [fst snd] in *.
    pose proof (perm_ents _ _ P) as Pe.
    destruct o as [h|e b| | | |k]; cbn [step op_ok astep fst snd] in *.
    - destruct V as (Wh & Dh & N1 & N2).
      destruct (cde_register_ok BSok lvl bb c h I) as (qt & unc & h' & E & R' & Hh').
      + exact Wh.
      + rewrite Es. unfold ents. rewrite map_app. intros X. apply in_app_or in X as [X|X]; [contradiction|].
        apply N2. eapply Permutation_in; [exact Pe|exact X].
      + rewrite E in H. apply rbind_ok in H as (c1 & H1 & H2). injection H2 as -> ->.
        apply opt_hpg_ok in H1 as (g & -> & _).
        assert (Dh' : denotes shp h' /\ h_ent h' = h_ent h /\ Forall (denotes shp) unc).
        { apply Forall_app in Coh as (_ & Cu). destruct Hh' as [(-> & -> & _)|(Ee & Pm)]; [auto|].
          eapply Permutation_Forall in Cu; [|exact Pm]. inversion Cu; subst. auto. }
        destruct Dh' as (Dh' & Ee & Du).
        split; cbn [cd_static cd_dyn cd_unc fst snd]; auto.
        * apply R_inv; exact R'.
        * rewrite map_app. cbn [map]. rewrite (denotes_fact h' Dh'), Ee, <- (denotes_fact h Dh).
          rewrite <- Permutation_cons_append. constructor. exact P.
        * apply Forall_app in Coh as (Cd & _). rewrite <- app_assoc. apply Forall_app. split; [exact Cd|].
          constructor; assumption.
    - assert (He : In e (ents (cd_dyn c))) by (eapply Permutation_in; [symmetry; exact Pe|exact V]).
      destruct (cde_deregister_ok BSok lvl bb c e b I He) as (h & dyn & qt & Pm & <- & E & R').
      rewrite E in H. apply rbind_ok in H as (c1 & H1 & H2). injection H2 as -> ->.
      apply opt_hpg_ok in H1 as (g & -> & _).
      assert (NDh : NoDup (ents (h :: dyn)))
        by (eapply Permutation_NoDup; [apply (ents_perm _ _ Pm)|apply dyn_nodup; exact I]).
      apply Forall_app in Coh as (Cd & Cu). eapply Permutation_Forall in Cd; [|exact Pm].
      inversion Cd; subst.
      split; cbn [cd_static cd_dyn cd_unc fst snd]; auto.
      + apply R_inv; exact R'.
      + apply without_perm; [exact NDh|]. rewrite <- P. symmetry. apply Permutation_map; exact Pm.
      + apply Forall_app. split; [assumption|]. destruct b; [exact Cu|]. apply Forall_app; auto.
    - destruct (cde_commit_ok lvl bb c I) as (qt & E & R').
      rewrite E in H. apply rbind_ok in H as (c1 & H1 & H2). injection H2 as -> ->.
      apply opt_hpg_ok in H1 as (g & -> & _). apply Forall_app in Coh as (Cd & _).
      split; cbn [cd_static cd_dyn cd_unc fst snd]; auto.
      + apply R_inv; exact R'.
      + rewrite app_nil_r. exact Cd.
    - rewrite (cde_flush_ok lvl bb c I) in H.
      apply rbind_ok in H as (c1 & H1 & H2). injection H2 as -> ->.
      apply opt_hpg_ok in H1 as (g & -> & _).
      split; cbn [cd_static cd_dyn cd_unc fst snd]; auto.
      apply R_inv. apply inv_R. exact I.
    - destruct (cde_commit_ok lvl bb c I) as (qt & E & R').
      unfold cde_snapshot in H. rewrite E in H.
      apply rbind_ok in H as ([s' c1] & H1 & H2). injection H2 as -> <-.
      apply rbind_ok in H1 as (c2 & H1 & H3). apply opt_hpg_ok in H1 as (g & -> & _).
      apply rbind_ok in H3 as (u & _ & H3). injection H3 as <- <-.
      apply Forall_app in Coh as (Cd & _).
      split; cbn [cd_static cd_dyn cd_unc fst snd]; auto.
      + apply R_inv; exact R'.
      + rewrite app_nil_r. exact Cd.
      + apply Forall2_app; [exact Sn|]. constructor; [exact P|constructor].
      + apply Forall_app. split; [exact So|]. constructor; [|constructor]. cbn [sn_dyn].
        split; [|exact Cd]. rewrite Es in R'. eapply R_snap; [exact g|exact R'].
    - apply rbind_ok in H as (s & H0 & H). apply expect_ok in H0.
      apply rbind_ok in H as (c1 & H1 & H2). injection H2 as -> ->.
      pose proof So as So'. rewrite Forall_forall in So. destruct (So s (nth_error_In _ _ H0)) as (Sok & Sd).
      rewrite <- Es in Sok.
      destruct (cde_restore_ok BSok lvl bb c s I Sok) as (qt & dyn & E & R' & Inc & Pm).
      rewrite E in H1. apply opt_hpg_ok in H1 as (g & -> & _).
      assert (Cd : Forall (denotes shp) dyn).
      { apply Forall_app in Coh as (C1 & C2). rewrite Forall_forall in *. intros x Hx.
        apply Inc in Hx. apply in_app_or in Hx as [Hx|Hx]; auto. apply in_app_or in Hx as [Hx|Hx]; auto. }
      split; cbn [cd_static cd_dyn cd_unc fst snd]; auto.
      + apply R_inv; exact R'.
      + rewrite (coherent_perm _ _ Cd Sd Pm).
        clear -Sn H0. revert k H0. induction Sn as [|s0 A0 sn sv P0 Sn IH]; intros [|k] H0; try discriminate.
        * injection H0 as ->. exact P0.
        * apply IH, H0.
      + rewrite app_nil_r. exact Cd.
  Qed.

  Lemma run_related : forall ops c sn a c' sn', related c sn a -> ops_ok shp st a ops ->
    rfold step ops (c, sn) = Ok (c', sn') -> related c' sn' (fold_left astep ops a).
  Proof.
    induction ops as [|o ops IH]; intros c sn a c' sn' HR V H; cbn [rfold fold_left ops_ok] in *.
    - injection H as -> ->. exact HR.
    - apply rbind_ok in H as ([c1 sn1] & H1 & H2). destruct V as (V1 & V2).
      eapply IH; [|exact V2|exact H2]. eapply step_related; eassumption.
  Qed.

  (** without proximity grid nothing can panic *)
  Lemma step_total : forall c sn a o, related c sn a -> op_ok shp st a o -> cd_hpg c = None ->
    exists c' sn', step (c, sn) o = Ok (c', sn') /\ cd_hpg c' = None.
  Proof.
    intros c sn [A sv] o [I Es P Coh Sn So] V Hn. cbn [fst snd] in *.
    pose proof (perm_ents _ _ P) as Pe.
    destruct o as [h|e b| | | |k]; cbn [step op_ok astep fst snd] in *.
    - destruct V as (Wh & Dh & N1 & N2).
      destruct (cde_register_ok BSok lvl bb c h I) as (qt & unc & h' & E & R' & Hh').
      + exact Wh.
      + rewrite Es. unfold ents. rewrite map_app. intros X. apply in_app_or in X as [X|X]; [contradiction|].
        apply N2. eapply Permutation_in; [exact Pe|exact X].
      + rewrite E, Hn. cbn. eauto.
    - assert (He : In e (ents (cd_dyn c))) by (eapply Permutation_in; [symmetry; exact Pe|exact V]).
      destruct (cde_deregister_ok BSok lvl bb c e b I He) as (h & dyn & qt & Pm & <- & E & R').
      rewrite E, Hn. cbn. eauto.
    - destruct (cde_commit_ok lvl bb c I) as (qt & E & R'). rewrite E, Hn. cbn. eauto.
    - rewrite (cde_flush_ok lvl bb c I), Hn. cbn. eauto.
    - destruct (cde_commit_ok lvl bb c I) as (qt & E & R').
      unfold cde_snapshot. rewrite E, Hn. cbn. eauto.
    - apply F2_length in Sn. rewrite <- Sn in V. apply nth_error_Some in V.
      destruct (nth_error sn k) as [s|] eqn:H0; [|congruence]. cbn [expect rbind].
      rewrite Forall_forall in So. destruct (So s (nth_error_In _ _ H0)) as (Sok & Sd).
      rewrite <- Es in Sok.
      destruct (cde_restore_ok BSok lvl bb c s I Sok) as (qt & dyn & E & R' & Inc & Pm).
      rewrite E, Hn. cbn. eauto.
  Qed.

  Lemma run_total : forall ops c sn a, related c sn a -> ops_ok shp st a ops -> cd_hpg c = None ->
    exists c' sn', rfold step ops (c, sn) = Ok (c', sn') /\ cd_hpg c' = None.
  Proof.
    induction ops as [|o ops IH]; intros c sn a HR V Hn; cbn [rfold ops_ok] in *.
    - eauto.
    - destruct V as (V1 & V2). destruct (step_total c sn a o HR V1 Hn) as (c1 & sn1 & E & Hn1).
      rewrite E. cbn [rbind]. eapply IH; [|exact V2|exact Hn1]. eapply step_related; eassumption.
  Qed.

  Lemma new_related : forall n c, statics_ok st -> cde_new bb st lvl n = Ok c -> related c [] ([], []).
  Proof.
    intros n c (W & ND) E. destruct (cde_new_ok BSok lvl bb st n W ND) as (qt & E' & R').
    rewrite E' in E. apply rbind_ok in E as (g & Eg & E). injection E as <-.
    split; cbn [cd_static cd_dyn cd_unc fst snd app]; auto.
    - apply R_inv; exact R'.
  Qed.

  Lemma engine_related : forall n ops c sn, statics_ok st -> ops_ok shp st ([], []) ops ->
    engine bb st lvl n ops = Ok (c, sn) -> related c sn (fold_left astep ops ([], [])).
  Proof.
    intros n ops c sn Sok V E. unfold engine in E. apply rbind_ok in E as (c0 & E0 & E).
    eapply run_related; [eapply new_related; eassumption|exact V|exact E].
  Qed.
  Lemma engine_total : forall ops, statics_ok st -> ops_ok shp st ([], []) ops ->
    exists c sn, engine bb st lvl 0 ops = Ok (c, sn).
  Proof.
    intros ops Sok V. destruct (cde_new_ok BSok lvl bb st 0 (proj1 Sok) (proj2 Sok)) as (qt & E' & R').
    cbn [rbind] in E'.
    pose proof (new_related 0 _ Sok E') as Rel.
    destruct (run_total ops _ [] _ Rel V eq_refl) as (c & sn & E & _).
    exists c, sn. unfold engine. rewrite E'. cbn [rbind]. exact E.
  Qed.

  Lemma related_registered : forall c sn a, related c sn a ->
    Permutation (registered c) (map fact_of st ++ fst a).
  Proof.
    intros c sn a [I Es P _ _ _]. unfold registered, all_hazards. rewrite map_app, Es.
    apply Permutation_app_head. exact P.
  Qed.
End CH.

(** *** answers as functions of the set of hazards *)
Section Answers.
  Context {F : Type} {N : Num F} {D : Type} {ED : EqD D} {BS : BSearch}.
  Hypothesis BSok : bsearch_ok BS.
  Local Notation hazard := (hazard F D).
  Local Notation entity := (entity D).
  Local Notation poly := (poly F).
  Local Notation cde := (cde F D).
  Local Notation fact := (fact F D).
  Local Notation question := (question F D).
  Variable lvl : nat.
  Variable bb : rect F.
  Local Notation inv := (@inv F N D lvl bb).

  Definition answer (os : list fact) (q : question) : tribool :=
    match q with
    | AskPoly s irr => yn (opoly lvl bb s irr os)
    | AskSurrogate s t irr => yn (osurr lvl bb s t irr os)
    | AskBoth s t buf irr =>
        match p_surr s, tr_poly_from t buf s with
        | Some u, Ok b => yn (osurr lvl bb u t irr os || opoly lvl bb b irr os)
        | _, _ => TFalse
        end
    | AskQuery q irr => yn (existsb (fun o => rel irr o && ohits lvl bb q o) os)
    | AskPoint p e =>
        if rp_collides bb p then
          match find (fun o => ent_eqb (o_ent o) e) os with
          | Some o => otri lvl bb (fun r => rp_collides r p) o
          | None => TFalse end
        else TIndet
    | AskEdge e irr =>
        if negb (rp_collides bb (es e)) || negb (rp_collides bb (ee e)) then TTrue
        else tri_all (map (otri lvl bb (qy_rect (edge_query e))) (filter (rel irr) os))
    | AskCircle k irr =>
        if rp_collides bb (ccen k)
        then tri_all (map (otri lvl bb (qy_rect (circle_query k))) (filter (rel irr) os))
        else TTrue
    end.

  Lemma ask_answer : forall c q, inv c -> good_question q -> ask c q = Ok (answer (registered c) q).
  Proof.
    intros c [s irr|s t irr|s t buf irr|q irr|p e|e irr|k irr] I G; cbn [ask answer good_question] in *.
    - rewrite (poly_collides_spec lvl bb c s irr I G). reflexivity.
    - rewrite (surrogate_collides_spec lvl bb c s t irr I G). reflexivity.
    - destruct G as ((u & Eu & Gu) & b & Eb & Gb). unfold surrogate_or_poly_collides.
      rewrite Eu, Eb. cbn [expect rbind]. rewrite (surrogate_collides_spec lvl bb c u t irr I Gu).
      cbn [rbind]. destruct (osurr lvl bb u t irr (registered c)); [reflexivity|]. cbn [orb rbind].
      rewrite (poly_collides_spec lvl bb c b irr I Gb). reflexivity.
    - rewrite (qt_hit_spec lvl bb c q irr I). reflexivity.
    - unfold point_definitely. rewrite (inv_bbox lvl bb c I).
      destruct (rp_collides bb p); [|reflexivity]. apply definitely_with_spec. exact I.
    - unfold edge_definitely. rewrite (inv_bbox lvl bb c I).
      destruct (negb (rp_collides bb (es e)) || negb (rp_collides bb (ee e))); [reflexivity|].
      apply definitely_spec. exact I.
    - unfold circle_definitely. rewrite (inv_bbox lvl bb c I).
      destruct (rp_collides bb (ccen k)); [|reflexivity]. apply definitely_spec. exact I.
  Qed.

  (** permutation invariance *)
  Lemma tri_all_perm : forall l l', Permutation l l' -> tri_all l = tri_all l'.
  Proof.
    intros l l' P. induction P; cbn [tri_all fold_right] in *.
    - reflexivity.
    - fold (tri_all l) (tri_all l'). rewrite IHP. reflexivity.
    - destruct x, y; cbn; destruct (fold_right tri_max TFalse l); reflexivity.
    - congruence.
  Qed.
  Lemma find_perm : forall (os os' : list fact) e, Permutation os os' -> NoDup (map o_ent os) ->
    find (fun o => ent_eqb (o_ent o) e) os = find (fun o => ent_eqb (o_ent o) e) os'.
  Proof.
    intros os os' e P ND.
    destruct (find (fun o => ent_eqb (o_ent o) e) os) as [o|] eqn:E1;
    destruct (find (fun o => ent_eqb (o_ent o) e) os') as [o'|] eqn:E2; [|exfalso|exfalso|reflexivity].
    - apply find_some in E1 as (H1 & K1). apply find_some in E2 as (H2 & K2).
      apply ent_eqb_ok in K1. apply ent_eqb_ok in K2. f_equal.
      apply (nodup_map_inj o_ent os); auto; [|congruence].
      eapply Permutation_in; [symmetry; exact P|exact H2].
    - apply find_some in E1 as (H1 & K1).
      pose proof (find_none _ _ E2 o (Permutation_in _ P H1)) as X. cbn in X. congruence.
    - apply find_some in E2 as (H1 & K1). symmetry in P.
      pose proof (find_none _ _ E1 o' (Permutation_in _ P H1)) as X. cbn in X. congruence.
  Qed.

  Lemma oedge_perm : forall s irr os os', Permutation os os' ->
    oedge lvl bb s irr os = oedge lvl bb s irr os'.
  Proof. intros. unfold oedge. apply existsb_ext_in. intros i _. apply existsb_perm. assumption. Qed.
  Lemma opoly_perm : forall s irr os os', Permutation os os' ->
    opoly lvl bb s irr os = opoly lvl bb s irr os'.
  Proof.
    intros s irr os os' P. unfold opoly. rewrite (oedge_perm s irr _ _ P).
    unfold ocontain. rewrite (existsb_perm _ _ _ P). reflexivity.
  Qed.
  Lemma osurr_perm : forall s t irr os os', Permutation os os' ->
    osurr lvl bb s t irr os = osurr lvl bb s t irr os'.
  Proof.
    intros. unfold osurr. f_equal; apply existsb_ext_in; intros x _; apply existsb_perm; assumption.
  Qed.
  Lemma answer_perm : forall q os os', NoDup (map o_ent os) -> Permutation os os' ->
    answer os q = answer os' q.
  Proof.
    intros [s irr|s t irr|s t buf irr|q irr|p e|e irr|k irr] os os' ND P; cbn [answer].
    - rewrite (opoly_perm _ _ _ _ P). reflexivity.
    - rewrite (osurr_perm _ _ _ _ _ P). reflexivity.
    - destruct (p_surr s); [|reflexivity]. destruct (tr_poly_from t buf s); [|reflexivity].
      rewrite (opoly_perm _ _ _ _ P), (osurr_perm _ _ _ _ _ P). reflexivity.
    - rewrite (existsb_perm _ _ _ P). reflexivity.
    - rewrite (find_perm _ _ e P ND). reflexivity.
    - rewrite (tri_all_perm _ _ (Permutation_map _ (perm_filter _ _ _ P))). reflexivity.
    - rewrite (tri_all_perm _ _ (Permutation_map _ (perm_filter _ _ _ P))). reflexivity.
  Qed.

  (** ignoring = absent *)
  Lemma rel_nil : forall o : fact, rel [] o = true.
  Proof. reflexivity. Qed.
  Lemma existsb_ignore : forall irr (f : fact -> bool) os,
    existsb (fun o => rel irr o && f o) os = existsb (fun o => rel [] o && f o) (filter (rel irr) os).
  Proof. intros. rewrite existsb_filter. reflexivity. Qed.
  Lemma filter_true : forall {A} (l : list A), filter (fun _ => true) l = l.
  Proof. induction l as [|x l IH]; cbn; [reflexivity|]. rewrite IH. reflexivity. Qed.
  Lemma opoly_ignore : forall s irr os,
    opoly lvl bb s irr os = opoly lvl bb s [] (filter (rel irr) os).
  Proof.
    intros s irr os. unfold opoly. destruct (relation_to bb (p_bbox s)); try reflexivity. f_equal.
    - unfold oedge. apply existsb_ext_in. intros i _. apply existsb_ignore.
    - unfold ocontain. rewrite existsb_filter. apply existsb_ext_in. intros o _.
      cbn [rel memb existsb negb]. destruct (o_act o), (rel irr o); reflexivity.
  Qed.
  Lemma osurr_ignore : forall s t irr os,
    osurr lvl bb s t irr os = osurr lvl bb s t [] (filter (rel irr) os).
  Proof.
    intros. unfold osurr. f_equal; apply existsb_ext_in; intros x _; apply existsb_ignore.
  Qed.
  Lemma answer_ignore : forall q irr os, has_irr q = true ->
    answer os (with_irr q irr) = answer (filter (rel irr) os) (with_irr q []).
  Proof.
    intros [s i|s t i|s t buf i|q i|p e|e i|k i] irr os Hi; cbn [answer with_irr] in *.
    - rewrite (opoly_ignore s irr os). reflexivity.
    - rewrite (osurr_ignore s t irr os). reflexivity.
    - destruct (p_surr s); [|reflexivity]. destruct (tr_poly_from t buf s); [|reflexivity].
      rewrite (opoly_ignore _ irr os), (osurr_ignore _ t irr os). reflexivity.
    - rewrite (existsb_ignore irr (ohits lvl bb q) os). reflexivity.
    - discriminate.
    - replace (filter (rel []) (filter (rel irr) os)) with (filter (rel irr) os); [reflexivity|].
      symmetry. apply filter_true.
    - replace (filter (rel []) (filter (rel irr) os)) with (filter (rel irr) os); [reflexivity|].
      symmetry. apply filter_true.
  Qed.

  (** monotonicity *)
  Lemma existsb_incl : forall {A} (f g : A -> bool) l l', incl l l' ->
    (forall x, In x l -> f x = true -> g x = true) -> existsb f l = true -> existsb g l' = true.
  Proof.
    intros A f g l l' I H E. apply existsb_exists in E as (x & Hx & Fx).
    apply existsb_exists. exists x. auto.
  Qed.
  Definition sub_irr (i i' : list entity) : Prop := incl i i'.
  Lemma rel_mono : forall i i' (o : fact), incl i i' -> rel i' o = true -> rel i o = true.
  Proof.
    intros i i' o I H. unfold rel in *. apply negb_true_iff in H. apply negb_true_iff.
    destruct (memb ent_eqb (o_ent o) i) eqn:E; [|reflexivity].
    apply memb_ent in E. apply I in E. apply memb_ent in E. congruence.
  Qed.
  Lemma opoly_mono : forall s i i' os os', incl os os' -> incl i i' ->
    opoly lvl bb s i' os = true -> opoly lvl bb s i os' = true.
  Proof.
    intros s i i' os os' I J. unfold opoly. destruct (relation_to bb (p_bbox s)); auto.
    intros H. apply orb_true_iff in H. apply orb_true_iff. destruct H as [H|H]; [left|right].
    - unfold oedge in *. revert H. apply existsb_incl; [apply incl_refl|]. intros k _.
      apply existsb_incl; [exact I|]. intros o _ H. apply andb_true_iff in H as (H1 & H2).
      rewrite (rel_mono _ _ o J H1), H2. reflexivity.
    - unfold ocontain in *. revert H. apply existsb_incl; [exact I|]. intros o _ H.
      apply andb_true_iff in H as (H1 & H2). apply andb_true_iff in H1 as (H0 & H1).
      rewrite H0, (rel_mono _ _ o J H1), H2. reflexivity.
  Qed.
  Lemma osurr_mono : forall s t i i' os os', incl os os' -> incl i i' ->
    osurr lvl bb s t i' os = true -> osurr lvl bb s t i os' = true.
  Proof.
    intros s t i i' os os' I J H. unfold osurr in *. apply orb_true_iff in H. apply orb_true_iff.
    destruct H as [H|H]; [left|right]; revert H; apply existsb_incl; try apply incl_refl; intros k _;
      apply existsb_incl; try exact I; intros o _ H; apply andb_true_iff in H as (H1 & H2);
      rewrite (rel_mono _ _ o J H1), H2; reflexivity.
  Qed.
  Lemma yn_mono : forall a b : bool, (a = true -> b = true) -> tri_le (yn a) (yn b).
  Proof. intros [|] [|] H; cbn; auto. discriminate (H eq_refl). Qed.
  Lemma tri_le_refl : forall t, tri_le t t.
  Proof. intros [| |]; exact I. Qed.
  Lemma tri_all_mono : forall (f : fact -> tribool) l l', incl l l' ->
    tri_le (tri_all (map f l)) (tri_all (map f l')).
  Proof.
    intros f l l' I. destruct (tri_all (map f l)) eqn:E.
    - apply tri_all_true in E. apply in_map_iff in E as (x & Ex & Hx).
      replace (tri_all (map f l')) with TTrue; [exact Logic.I|]. symmetry. apply tri_all_true.
      rewrite <- Ex. apply in_map, I, Hx.
    - exact Logic.I.
    - destruct (tri_all (map f l')) eqn:E'; try exact Logic.I. exfalso.
      assert (X : tri_all (map f l) = TFalse); [|congruence].
      rewrite tri_all_false in E'. apply tri_all_false. intros t Ht.
      apply in_map_iff in Ht as (x & <- & Hx). apply E'. apply in_map, I, Hx.
  Qed.
  Lemma filter_incl : forall {A} (f g : A -> bool) l l', incl l l' ->
    (forall x, f x = true -> g x = true) -> incl (filter f l) (filter g l').
  Proof. intros A f g l l' I H x Hx. apply filter_In in Hx as (H1 & H2). apply filter_In. auto. Qed.

  Lemma answer_mono : forall q i i' os os', NoDup (map o_ent os') -> incl os os' -> incl i i' ->
    tri_le (answer os (with_irr q i')) (answer os' (with_irr q i)).
  Proof.
    intros [s j|s t j|s t buf j|q j|p e|e j|k j] i i' os os' ND I J; cbn [answer with_irr].
    - apply yn_mono. apply opoly_mono; assumption.
    - apply yn_mono. apply osurr_mono; assumption.
    - destruct (p_surr s) as [u|]; [|exact Logic.I]. destruct (tr_poly_from t buf s) as [b|]; [|exact Logic.I].
      apply yn_mono. intros H. apply orb_true_iff in H. apply orb_true_iff.
      destruct H as [H|H]; [left|right]; revert H; [apply osurr_mono|apply opoly_mono]; assumption.
    - apply yn_mono. apply existsb_incl; [exact I|]. intros o _ H. apply andb_true_iff in H as (H1 & H2).
      rewrite (rel_mono _ _ o J H1), H2. reflexivity.
    - destruct (rp_collides bb p); [|exact Logic.I].
      destruct (find (fun o => ent_eqb (o_ent o) e) os) as [o|] eqn:E; [|exact Logic.I].
      apply find_some in E as (H1 & K1). apply ent_eqb_ok in K1.
      destruct (find (fun o => ent_eqb (o_ent o) e) os') as [o'|] eqn:E'.
      + apply find_some in E' as (H2 & K2). apply ent_eqb_ok in K2.
        replace o' with o; [apply tri_le_refl|]. apply (nodup_map_inj o_ent os'); auto. congruence.
      + pose proof (find_none _ _ E' o (I o H1)) as X. cbn in X. rewrite K1, ent_eqb_refl in X. discriminate.
    - destruct (negb _ || negb _); [exact Logic.I|]. apply tri_all_mono, filter_incl; [exact I|].
      intros o. apply rel_mono, J.
    - destruct (rp_collides bb (ccen k)); [|exact Logic.I]. apply tri_all_mono, filter_incl; [exact I|].
      intros o. apply rel_mono, J.
  Qed.
End Answers.
