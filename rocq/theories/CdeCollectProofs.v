(** Collecting collisions: what the [collect_*] family appends to the caller's
    buffer. *)
From Coq Require Import List Bool Arith ZArith Lia Permutation.
From Verif Require Import Base Num GeoModel HazardModel QTModel TransfModel HpgModel CdeModel
  BaseProofs HazVecProofs QTProofs CdeProofs CdeOpsProofs.
Import ListNotations.

Section CC.
  Context {F : Type} {N : Num F} {D : Type} {ED : EqD D} {BS : BSearch}.
  Local Notation hazard := (hazard F D).
  Local Notation entity := (entity D).
  Local Notation poly := (poly F).
  Local Notation cde := (cde F D).
  Local Notation obs := (obs (F:=F) (D:=D)).
  Variable lvl : nat.
  Variable bb : rect F.
  Local Notation inv := (@inv F N D lvl bb).

  Lemma collect_fold : forall {X} (f : list entity -> X -> res (list entity))
      (ok : X -> entity -> Prop) (must : X -> list entity -> Prop) l det,
    (forall x d, In x l -> collect_post d (ok x) (must x d) (f d x)) ->
    collect_post det (fun e => exists x, In x l /\ ok x e)
      (exists x, In x l /\ must x det) (rfold f l det).
  Proof.
    intros X f ok must l det H.
    assert (K : forall done, incl done l -> forall new,
      NoDup new -> (forall e, In e new -> ~ In e det /\ exists x, In x l /\ ok x e) ->
      exists new', rfold f done (det ++ new) = Ok (det ++ new') /\ NoDup new' /\
        (forall e, In e new' -> ~ In e det /\ exists x, In x l /\ ok x e) /\
        (new <> [] \/ (exists x, In x done /\ must x det) -> new' <> [])).
    { induction done as [|x done IH]; intros I new ND A; cbn [rfold].
      - exists new. split; [reflexivity|]. split; [exact ND|]. split; [exact A|].
        intros [K|(x & [] & _)]; exact K.
      - destruct (H x (det ++ new) (I x (or_introl eq_refl))) as (nw & E & NDw & Aw & Mw).
        rewrite E. cbn [rbind]. rewrite <- app_assoc.
        destruct (IH (fun y Hy => I y (or_intror Hy)) (new ++ nw)) as (new' & E' & ND' & A' & M').
        + apply NoDup_app; auto. intros e He Hw. destruct (Aw e Hw) as (Nd & _).
          apply Nd, in_or_app. right; exact He.
        + intros e He. apply in_app_or in He as [He|He]; [apply A, He|].
          destruct (Aw e He) as (Nd & Ok). split; [intros Z; apply Nd, in_or_app; left; exact Z|].
          exists x. split; [apply I; left; reflexivity|exact Ok].
        + exists new'. split; [exact E'|]. split; [exact ND'|]. split; [exact A'|].
          intros [Hn|(y & [<-|Hy] & My)]; apply M'.
          * left. intros Z. apply app_eq_nil in Z. apply Hn, Z.
          * left. destruct new as [|z new]; [|discriminate]. cbn [app] in *. rewrite app_nil_r in *.
            apply Mw, My.
          * right. exists y. auto. }
    destruct (K l (incl_refl l) [] (NoDup_nil _)) as (new' & E & ND & A & M); [intros e []|].
    rewrite app_nil_r in E. exists new'. split; [exact E|]. split; [exact ND|]. split; [exact A|].
    intros M0. apply M. right; exact M0.
  Qed.

  Lemma drain_irr : forall {A} (det irr new : list A),
    drain (length det) (length det + length irr) ((det ++ irr) ++ new) = det ++ new.
  Proof.
    intros A det irr new. unfold drain. rewrite <- app_assoc at 1. rewrite firstn_app, Nat.sub_diag, firstn_all.
    cbn [firstn]. rewrite app_nil_r. f_equal.
    rewrite <- (app_length det irr), skipn_app, skipn_all, Nat.sub_diag. reflexivity.
  Qed.

  (** the appended entities, once the ignore list is taken out of the buffer *)
  Definition appended (det irr : list entity) (ok : entity -> Prop) (must : Prop)
      (r : res (list entity)) : Prop :=
    exists new, r = Ok (det ++ new) /\ NoDup new /\
      (forall e, In e new -> ~ In e det /\ ~ In e irr /\ ok e) /\ (must -> new <> []).

  Lemma drain_post : forall det irr ok must r,
    collect_post (det ++ irr) ok must r ->
    appended det irr ok must (d <- r ;; Ok (drain (length det) (length det + length irr) d)).
  Proof.
    intros det irr ok must r (new & -> & ND & A & M). exists new. cbn [rbind].
    rewrite drain_irr. split; [reflexivity|]. split; [exact ND|]. split; [|exact M].
    intros e He. destruct (A e He) as (Nd & Ok). rewrite in_app_iff in Nd. tauto.
  Qed.

  (** how a hazard alone is hit by a polygon *)
  Definition edge_hit (s : poly) (o : obs) : bool :=
    existsb (fun i => ohits lvl bb (edge_query (edge_at s i)) o) (edge_indices s).
  Definition poly_hit (s : poly) (o : obs) : bool :=
    edge_hit s o || (o_act o && ocontained lvl bb s o).
  Definition surr_hit (s : surrogate F) (t : transf F) (o : obs) : bool :=
    existsb (fun p => ohits lvl bb (circle_query (tr_circle t p)) o) (firstn (s_nff s) (s_poles s)) ||
    existsb (fun p => ohits lvl bb (edge_query (tr_edge t p)) o) (s_piers s).

  Lemma collect_contained_post : forall c s h d, inv c -> wf_poly s -> In h (all_hazards c) ->
    collect_post d (fun e => e = h_ent h /\ ocontained lvl bb s (obs_of h) = true)
      (~ In (h_ent h) d /\ ocontained lvl bb s (obs_of h) = true)
      (collect_contained c s d h).
  Proof.
    intros c s h d I W H. unfold collect_contained.
    destruct (memb ent_eqb (h_ent h) d) eqn:M.
    - apply memb_ent in M. exists []. rewrite app_nil_r. split; [reflexivity|]. split; [constructor|].
      split; [intros e []|]. intros (X & _). contradiction.
    - apply memb_ent_false in M. rewrite (are_contained_spec lvl bb c s h I W H). cbn [rbind].
      destruct (ocontained lvl bb s (obs_of h)) eqn:E.
      + exists [h_ent h]. split; [reflexivity|]. split; [constructor; [intros []|constructor]|].
        split; [|discriminate]. intros e [<-|[]]. auto.
      + exists []. rewrite app_nil_r. split; [reflexivity|]. split; [constructor|].
        split; [intros e []|]. intros (_ & X). discriminate.
  Qed.

  Definition hit_in (c : cde) (f : obs -> bool) (e : entity) : Prop :=
    exists o, In o (registered c) /\ o_ent o = e /\ f o = true.
  Definition some_hit (c : cde) (f : obs -> bool) (d : list entity) : Prop :=
    exists o, In o (registered c) /\ ~ In (o_ent o) d /\ f o = true.

  Lemma collect_seq' : forall det ok1 ok2 (must1 : Prop) (must2 : list entity -> Prop) r
      (f : list entity -> res (list entity)),
    collect_post det ok1 must1 r ->
    (forall d, collect_post d ok2 (must2 d) (f d)) ->
    collect_post det (fun e => ok1 e \/ ok2 e) (must1 \/ must2 det) (d <- r ;; f d).
  Proof.
    intros det ok1 ok2 must1 must2 r f (n1 & -> & ND1 & A1 & M1) H. cbn [rbind].
    destruct (H (det ++ n1)) as (n2 & E & ND2 & A2 & M2). exists (n1 ++ n2).
    rewrite E, app_assoc. split; [reflexivity|]. split.
    { apply NoDup_app; auto. intros x H1 H2. destruct (A2 x H2) as (X & _). apply X, in_or_app. auto. }
    split.
    - intros e He. apply in_app_or in He as [He|He].
      + destruct (A1 e He). auto.
      + destruct (A2 e He) as (X & Y). split; [intros Z; apply X, in_or_app; auto|auto].
    - intros [X|X] Z; apply app_eq_nil in Z as (-> & ->); [apply M1; auto|].
      apply M2; [rewrite app_nil_r; exact X|reflexivity].
  Qed.

  Theorem collect_poly_spec : forall c s irr det, inv c -> wf_poly s ->
    appended det irr (hit_in c (poly_hit s)) (some_hit c (poly_hit s) (det ++ irr))
      (collect_poly c s irr det).
  Proof.
    intros c s irr det I W. unfold collect_poly.
    match goal with |- appended _ _ _ _ ?x =>
      replace x with (d <- (d1 <- rfold (fun d i => e <- get_edge s i ;; qt_collect c (edge_query e) d)
                (edge_indices s) (det ++ irr) ;;
        rfold (collect_contained c s) (filter (fun h => h_active h) (all_hazards c)) d1) ;;
        Ok (drain (length det) (length det + length irr) d)) end.
    2:{ destruct (rfold _ (edge_indices s) (det ++ irr)); reflexivity. }
    apply drain_post.
    eapply collect_weaken.
    - eapply collect_seq'
        with (must2 := fun d => exists h, In h (filter (fun h => h_active h) (all_hazards c)) /\
                 ~ In (h_ent h) d /\ ocontained lvl bb s (obs_of h) = true).
      + apply (collect_fold _
          (fun i e => ohit_by lvl bb (edge_query (edge_at s i)) (registered c) e)
          (fun i d => exists o, In o (registered c) /\ ~ In (o_ent o) d /\
                          ohits lvl bb (edge_query (edge_at s i)) o = true)).
        intros i d Hi. apply in_seq in Hi. rewrite (get_edge_at s i W) by lia. cbn [rbind].
        apply qt_collect_spec. exact I.
      + intros d. apply (collect_fold _ (fun h e => e = h_ent h /\ ocontained lvl bb s (obs_of h) = true)
          (fun h d => ~ In (h_ent h) d /\ ocontained lvl bb s (obs_of h) = true)).
        intros h d0 Hh. apply filter_In in Hh as (Hh & _). apply collect_contained_post; assumption.
    - intros e _ [(i & Hi & o & Ho & Ee & Hit)|(h & Hh & -> & Hc)].
      + exists o. split; [exact Ho|]. split; [exact Ee|]. unfold poly_hit, edge_hit.
        apply orb_true_iff. left. apply existsb_exists. eauto.
      + apply filter_In in Hh as (Hh & Ha). exists (obs_of h).
        split; [apply in_map, Hh|]. split; [reflexivity|]. unfold poly_hit.
        change (o_act (obs_of h)) with (h_active h). rewrite Ha, Hc. apply orb_true_r.
    - intros (o & Ho & Nd & Hit). unfold poly_hit in Hit. apply orb_true_iff in Hit as [Hit|Hit].
      + left. unfold edge_hit in Hit. apply existsb_exists in Hit as (i & Hi & Hit). exists i.
        split; [exact Hi|]. exists o. auto.
      + right. apply andb_true_iff in Hit as (Ha & Hc). unfold registered in Ho.
        apply in_map_iff in Ho as (h & <- & Hh). exists h.
        split; [apply filter_In; split; [exact Hh|exact Ha]|]. auto.
  Qed.

  Theorem collect_surrogate_spec : forall c s t irr det, inv c -> wf_surr s ->
    appended det irr (hit_in c (surr_hit s t)) (some_hit c (surr_hit s t) (det ++ irr))
      (collect_surrogate c s t irr det).
  Proof.
    intros c s t irr det I W. unfold collect_surrogate, ff_poles.
    pose proof W as W'. apply Nat.leb_le in W'. rewrite W'. cbn [rbind].
    match goal with |- appended _ _ _ _ ?x =>
      replace x with (d <- (d1 <- rfold (fun d p => qt_collect c (circle_query (tr_circle t p)) d)
            (firstn (s_nff s) (s_poles s)) (det ++ irr) ;;
          rfold (fun d p => qt_collect c (edge_query (tr_edge t p)) d) (s_piers s) d1) ;;
        Ok (drain (length det) (length det + length irr) d)) end.
    2:{ destruct (rfold _ (firstn (s_nff s) (s_poles s)) (det ++ irr)); reflexivity. }
    apply drain_post.
    eapply collect_weaken.
    - eapply collect_seq' with (must2 := fun d => exists p, In p (s_piers s) /\
          exists o, In o (registered c) /\ ~ In (o_ent o) d /\
                          ohits lvl bb (edge_query (tr_edge t p)) o = true).
      + apply (collect_fold _
          (fun p e => ohit_by lvl bb (circle_query (tr_circle t p)) (registered c) e)
          (fun p d => exists o, In o (registered c) /\ ~ In (o_ent o) d /\
                          ohits lvl bb (circle_query (tr_circle t p)) o = true)).
        intros p d Hp. apply qt_collect_spec. exact I.
      + intros d. apply (collect_fold _
          (fun p e => ohit_by lvl bb (edge_query (tr_edge t p)) (registered c) e)
          (fun p d => exists o, In o (registered c) /\ ~ In (o_ent o) d /\
                          ohits lvl bb (edge_query (tr_edge t p)) o = true)).
        intros p d0 Hp. apply qt_collect_spec. exact I.
    - intros e _ [(i & Hi & o & Ho & Ee & Hit)|(i & Hi & o & Ho & Ee & Hit)];
        exists o; (split; [exact Ho|]); (split; [exact Ee|]); unfold surr_hit; apply orb_true_iff;
        [left|right]; apply existsb_exists; eauto.
    - intros (o & Ho & Nd & Hit). unfold surr_hit in Hit. apply orb_true_iff in Hit as [Hit|Hit];
        apply existsb_exists in Hit as (p & Hp & Hit); [left|right]; exists p; eauto 10.
  Qed.

  Theorem hazards_within_spec : forall c q irr det, inv c ->
    appended det irr
      (fun e => hit_in c (ohits lvl bb q) e \/ (e = BinExterior /\ rp_collides bb (qy_cen q) = false /\ det = []))
      (some_hit c (ohits lvl bb q) (det ++ irr))
      (hazards_within c q irr det).
  Proof.
    intros c q irr det I. unfold hazards_within.
    destruct (qt_collect_spec lvl bb c q (det ++ irr) I) as (new & E & ND & A & M).
    rewrite E. cbn [rbind]. rewrite drain_irr, (inv_bbox lvl bb c I).
    assert (A' : forall e, In e new -> ~ In e det /\ ~ In e irr /\
        (hit_in c (ohits lvl bb q) e \/ (e = BinExterior /\ rp_collides bb (qy_cen q) = false /\ det = []))).
    { intros e He. destruct (A e He) as (Nd & Ok). rewrite in_app_iff in Nd.
      split; [tauto|]. split; [tauto|]. left. exact Ok. }
    destruct (negb (rp_collides bb (qy_cen q)) && _ && _) eqn:B.
    - apply andb_true_iff in B as (B & B3). apply andb_true_iff in B as (B1 & B2).
      apply negb_true_iff in B1, B3. apply memb_ent_false in B3.
      destruct (det ++ new) eqn:Z; [|discriminate]. apply app_eq_nil in Z as (-> & ->).
      exists [BinExterior]. split; [reflexivity|]. split; [constructor; [intros []|constructor]|].
      split; [|intros _; discriminate]. intros e [<-|[]]. split; [intros []|]. split; [exact B3|].
      right. auto.
    - exists new. split; [reflexivity|]. split; [exact ND|]. split; [exact A'|exact M].
  Qed.

  (** relation with the verdicts *)
  Lemma opoly_hit : forall s irr os, relation_to bb (p_bbox s) = Surrounding ->
    opoly lvl bb s irr os = existsb (fun o => rel irr o && poly_hit s o) os.
  Proof.
    intros s irr os E. unfold opoly. rewrite E. apply eq_iff_eq_true. rewrite orb_true_iff, existsb_exists.
    unfold oedge, ocontain. rewrite !existsb_exists. split.
    - intros [(i & Hi & K)|(o & Ho & K)].
      + apply existsb_exists in K as (o & Ho & K). apply andb_true_iff in K as (K1 & K2).
        exists o. split; [exact Ho|]. rewrite K1. cbn [andb]. unfold poly_hit, edge_hit.
        apply orb_true_iff. left. apply existsb_exists. eauto.
      + apply andb_true_iff in K as (K1 & K2). apply andb_true_iff in K1 as (K0 & K1).
        exists o. split; [exact Ho|]. rewrite K1. unfold poly_hit. rewrite K0, K2. apply orb_true_r.
    - intros (o & Ho & K). apply andb_true_iff in K as (K1 & K2). unfold poly_hit in K2.
      apply orb_true_iff in K2 as [K2|K2].
      + left. unfold edge_hit in K2. apply existsb_exists in K2 as (i & Hi & K2). exists i.
        split; [exact Hi|]. apply existsb_exists. exists o. rewrite K1, K2. auto.
      + right. apply andb_true_iff in K2 as (K2 & K3). exists o. rewrite K2, K1, K3. auto.
  Qed.
  Lemma osurr_hit : forall s t irr os,
    osurr lvl bb s t irr os = existsb (fun o => rel irr o && surr_hit s t o) os.
  Proof.
    intros s t irr os. unfold osurr. apply eq_iff_eq_true. rewrite orb_true_iff, !existsb_exists. split.
    - intros [(p & Hp & K)|(p & Hp & K)]; apply existsb_exists in K as (o & Ho & K);
        apply andb_true_iff in K as (K1 & K2); exists o; (split; [exact Ho|]); rewrite K1; cbn [andb];
        unfold surr_hit; apply orb_true_iff; [left|right]; apply existsb_exists; eauto.
    - intros (o & Ho & K). apply andb_true_iff in K as (K1 & K2). unfold surr_hit in K2.
      apply orb_true_iff in K2 as [K2|K2]; apply existsb_exists in K2 as (p & Hp & K2); [left|right];
        exists p; (split; [exact Hp|]); apply existsb_exists; exists o; rewrite K1, K2; auto.
  Qed.
End CC.
