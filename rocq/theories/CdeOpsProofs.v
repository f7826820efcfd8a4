(** Every state-changing operation of the engine keeps the invariant, and what it
    does to the set of registered hazards. *)
From Coq Require Import List Bool Arith ZArith Lia Permutation.
From Verif Require Import Base Num GeoModel HazardModel QTModel TransfModel HpgModel CdeModel
  BaseProofs HazVecProofs QTProofs CdeProofs.
Import ListNotations.

Section CO.
  Context {F : Type} {N : Num F} {D : Type} {ED : EqD D} {BS : BSearch}.
  Hypothesis BSok : bsearch_ok BS.
  Local Notation rect := (rect F).
  Local Notation hazard := (hazard F D).
  Local Notation entity := (entity D).
  Local Notation node := (node F D).
  Local Notation qth := (qth F D).
  Local Notation cde := (cde F D).
  Local Notation snapshot := (snapshot F D).
  Variable lvl : nat.
  Variable bb : rect.
  Local Notation inv := (@inv F N D lvl bb).

  Definition ents (l : list hazard) : list entity := map (@h_ent F D) l.
  Definition qtl (st dyn unc : list hazard) : list qth :=
    map qth_of_hazard (st ++ dyn) ++ map (fun h => inactive (qth_of_hazard h)) unc.

  Record R (qt : node) (st dyn unc : list hazard) : Prop := {
    r_repr : repr lvl bb (qtl st dyn unc) qt;
    r_wf : Forall wf_hazard (st ++ dyn ++ unc);
    r_nd : NoDup (ents (st ++ dyn ++ unc))
  }.

  Lemma inv_R : forall c, inv c -> R (cd_qt c) (cd_static c) (cd_dyn c) (cd_unc c).
  Proof. intros c [A B C E]. split; assumption. Qed.
  Lemma R_inv : forall qt st dyn g unc, R qt st dyn unc -> inv (Cde qt st dyn g bb unc).
  Proof. intros qt st dyn g unc [A B C]. split; try assumption. reflexivity. Qed.

  Lemma qtl_perm : forall st dyn dyn' unc unc', Permutation dyn dyn' -> Permutation unc unc' ->
    Permutation (qtl st dyn unc) (qtl st dyn' unc').
  Proof.
    intros. unfold qtl. apply Permutation_app; apply Permutation_map; auto.
    apply Permutation_app_head; assumption.
  Qed.
  Lemma qtl_dyn : forall st h dyn unc,
    Permutation (qtl st (h :: dyn) unc) (qth_of_hazard h :: qtl st dyn unc).
  Proof.
    intros. unfold qtl. rewrite <- app_comm_cons || idtac.
    rewrite (Permutation_app_comm st (h :: dyn)). cbn [app map]. constructor.
    apply Permutation_app_tail, Permutation_map, Permutation_app_comm.
  Qed.
  Lemma qtl_unc : forall st h dyn unc,
    Permutation (qtl st dyn (h :: unc)) (inactive (qth_of_hazard h) :: qtl st dyn unc).
  Proof. intros. unfold qtl. cbn [map]. symmetry. apply Permutation_middle. Qed.
  Lemma qtl_ents : forall st dyn unc, map q_ent (qtl st dyn unc) = ents (st ++ dyn ++ unc).
  Proof.
    intros. unfold qtl, ents. rewrite app_assoc, !map_app, !map_map. reflexivity.
  Qed.

  Lemma R_perm : forall qt st dyn dyn' unc unc', R qt st dyn unc ->
    Permutation dyn dyn' -> Permutation unc unc' -> R qt st dyn' unc'.
  Proof.
    intros qt st dyn dyn' unc unc' [A B C] P Q.
    assert (P' : Permutation (st ++ dyn ++ unc) (st ++ dyn' ++ unc'))
      by (apply Permutation_app_head, Permutation_app; assumption).
    split.
    - eapply repr_perm; [exact A|]. apply qtl_perm; assumption.
    - eapply Permutation_Forall; eassumption.
    - eapply Permutation_NoDup; [apply Permutation_map, P'|exact C].
  Qed.

  Lemma R_wfq : forall al qt st dyn unc, R qt st dyn unc ->
    (forall h, In h (st ++ dyn ++ unc) -> al (a_ptr (h_shape h)) = true) ->
    Forall (wf_qth al) (qtl st dyn unc).
  Proof.
    intros al qt st dyn unc [A B C] H.
    apply (wf_qts al (Cde qt st dyn None bb unc)); assumption.
  Qed.
  Lemma R_ndq : forall qt st dyn unc, R qt st dyn unc -> NoDup (map q_ent (qtl st dyn unc)).
  Proof. intros qt st dyn unc [_ _ C]. rewrite qtl_ents. exact C. Qed.

  Lemma not_ent_perm : forall (q : qth) hs hs', NoDup (map q_ent hs) ->
    Permutation hs (q :: hs') -> Permutation (filter (not_ent (q_ent q)) hs) hs'.
  Proof.
    intros q hs hs' ND P. rewrite (perm_filter _ _ _ P). cbn [filter].
    apply (Permutation_map q_ent) in P. apply (Permutation_NoDup P) in ND. cbn [map] in ND.
    inversion ND as [|? ? Nq ND']; subst.
    unfold not_ent at 1. rewrite ent_eqb_refl. cbn [negb].
    rewrite filter_id; [reflexivity|]. intros x Hx. unfold not_ent.
    destruct (ent_eqb (q_ent x) (q_ent q)) eqn:E; [|reflexivity].
    apply ent_eqb_ok in E. exfalso. apply Nq. rewrite <- E. apply in_map; exact Hx.
  Qed.
  Lemma set_act_perm : forall b (q : qth) hs hs', NoDup (map q_ent hs) ->
    Permutation hs (q :: hs') ->
    Permutation (map (set_act (q_ent q) b) hs) (with_act b q :: hs').
  Proof.
    intros b q hs hs' ND P. rewrite (Permutation_map _ P). cbn [map].
    apply (Permutation_map q_ent) in P. apply (Permutation_NoDup P) in ND. cbn [map] in ND.
    inversion ND as [|? ? Nq ND']; subst.
    unfold set_act at 1. rewrite ent_eqb_refl.
    rewrite map_set_act_other; [reflexivity|]. intros h Hh E. apply Nq. rewrite <- E.
    apply in_map; exact Hh.
  Qed.

  Lemma R_register : forall al qt st dyn unc h, R qt st dyn unc -> wf_hazard h ->
    ~ In (h_ent h) (ents (st ++ dyn ++ unc)) ->
    (forall x, In x (h :: st ++ dyn ++ unc) -> al (a_ptr (h_shape x)) = true) ->
    exists qt', qt_register al qt h = Ok qt' /\ R qt' st (dyn ++ [h]) unc.
  Proof.
    intros al qt st dyn unc h HR Wh Nh Hal.
    assert (Lv : n_level qt = lvl) by (destruct HR as [A _ _]; destruct lvl; apply A).
    unfold qt_register. rewrite Lv.
    destruct (node_register_ok BSok al lvl bb (qtl st dyn unc) qt (qth_of_hazard h)) as (qt' & E & R').
    - apply HR.
    - eapply R_wfq; [exact HR|]. intros x Hx. apply Hal. right; exact Hx.
    - apply wf_qth_hazard; [exact Wh|]. apply Hal. left; reflexivity.
    - exists qt'. split; [exact E|].
      assert (P : Permutation (h :: st ++ dyn ++ unc) (st ++ (h :: dyn) ++ unc))
        by (cbn [app]; apply Permutation_middle).
      apply R_perm with (h :: dyn) unc; [|apply Permutation_cons_append|reflexivity].
      split.
      + eapply repr_perm; [exact R'|]. symmetry. apply qtl_dyn.
      + eapply Permutation_Forall; [exact P|]. constructor; [exact Wh|apply HR].
      + eapply Permutation_NoDup; [apply Permutation_map, P|]. cbn [map]. constructor; [exact Nh|apply HR].
  Qed.

  Lemma al_all : forall (h : hazard), True -> (fun _ : nat => true) (a_ptr (h_shape h)) = true.
  Proof. reflexivity. Qed.

  Lemma R_activate : forall qt st dyn u unc, R qt st dyn (u :: unc) ->
    R (node_activate qt (h_ent u)) st (u :: dyn) unc.
  Proof.
    intros qt st dyn u unc HR.
    assert (P : Permutation (st ++ dyn ++ u :: unc) (st ++ (u :: dyn) ++ unc))
      by (apply Permutation_app_head; cbn [app]; symmetry; apply Permutation_middle).
    split.
    - pose proof (node_toggle_ok BSok (fun _ => true) true lvl bb (qtl st dyn (u :: unc)) qt (h_ent u)
        (r_repr _ _ _ _ HR) (R_wfq _ _ _ _ _ HR (fun _ _ => eq_refl)) (R_ndq _ _ _ _ HR)) as T.
      eapply repr_perm; [apply T|].
      + intros h Hh E. apply (Permutation_in _ (qtl_unc st u dyn unc)) in Hh.
        destruct Hh as [<-|Hh]; [reflexivity|]. exfalso.
        pose proof (Permutation_NoDup (Permutation_map q_ent (qtl_unc st u dyn unc)) (R_ndq _ _ _ _ HR)) as ND.
        cbn [map] in ND. inversion ND as [|? ? Nq _]; subst. apply Nq. cbn [inactive with_act q_ent qth_of_hazard].
        rewrite <- E. apply in_map; exact Hh.
      + rewrite (set_act_perm true _ _ _ (R_ndq _ _ _ _ HR) (qtl_unc st u dyn unc)).
        symmetry. apply qtl_dyn.
    - eapply Permutation_Forall; [exact P|apply HR].
    - eapply Permutation_NoDup; [apply Permutation_map, P|apply HR].
  Qed.

  Lemma R_deactivate : forall qt st dyn h unc, R qt st (h :: dyn) unc ->
    R (node_deactivate qt (h_ent h)) st dyn (h :: unc).
  Proof.
    intros qt st dyn u unc HR.
    assert (P : Permutation (st ++ (u :: dyn) ++ unc) (st ++ dyn ++ u :: unc))
      by (apply Permutation_app_head; cbn [app]; apply Permutation_middle).
    split.
    - pose proof (node_toggle_ok BSok (fun _ => true) false lvl bb (qtl st (u :: dyn) unc) qt (h_ent u)
        (r_repr _ _ _ _ HR) (R_wfq _ _ _ _ _ HR (fun _ _ => eq_refl)) (R_ndq _ _ _ _ HR)) as T.
      eapply repr_perm; [apply T|].
      + intros h Hh E. apply (Permutation_in _ (qtl_dyn st u dyn unc)) in Hh.
        destruct Hh as [<-|Hh]; [reflexivity|]. exfalso.
        pose proof (Permutation_NoDup (Permutation_map q_ent (qtl_dyn st u dyn unc)) (R_ndq _ _ _ _ HR)) as ND.
        cbn [map] in ND. inversion ND as [|? ? Nq _]; subst. apply Nq. cbn [q_ent qth_of_hazard].
        rewrite <- E. apply in_map; exact Hh.
      + rewrite (set_act_perm false _ _ _ (R_ndq _ _ _ _ HR) (qtl_dyn st u dyn unc)).
        symmetry. apply qtl_unc.
    - eapply Permutation_Forall; [exact P|apply HR].
    - eapply Permutation_NoDup; [apply Permutation_map, P|apply HR].
  Qed.

  Lemma forall_drop : forall {A} (P : A -> Prop) l x r, Forall P (l ++ x :: r) -> Forall P (l ++ r).
  Proof.
    intros A P l x r H. apply Forall_app in H as (H1 & H2). inversion H2; subst.
    apply Forall_app; auto.
  Qed.

  Lemma R_drop_dyn : forall qt st dyn h unc, R qt st (h :: dyn) unc ->
    R (node_deregister qt (h_ent h)) st dyn unc.
  Proof.
    intros qt st dyn h unc HR. split.
    - pose proof (node_deregister_ok (fun _ => true) lvl bb (qtl st (h :: dyn) unc) qt (h_ent h)
        (r_repr _ _ _ _ HR) (R_wfq _ _ _ _ _ HR (fun _ _ => eq_refl)) (R_ndq _ _ _ _ HR)) as T.
      eapply repr_perm; [exact T|].
      apply (not_ent_perm (qth_of_hazard h)); [apply (R_ndq _ _ _ _ HR)|apply qtl_dyn].
    - pose proof (r_wf _ _ _ _ HR) as W. cbn [app] in W. apply forall_drop in W. exact W.
    - pose proof (r_nd _ _ _ _ HR) as W. unfold ents in *. cbn [app] in W. rewrite map_app in *. cbn [map] in W.
      apply NoDup_remove_1 in W. exact W.
  Qed.
  Lemma R_drop_unc : forall qt st dyn h unc, R qt st dyn (h :: unc) ->
    R (node_deregister qt (h_ent h)) st dyn unc.
  Proof.
    intros qt st dyn h unc HR. split.
    - pose proof (node_deregister_ok (fun _ => true) lvl bb (qtl st dyn (h :: unc)) qt (h_ent h)
        (r_repr _ _ _ _ HR) (R_wfq _ _ _ _ _ HR (fun _ _ => eq_refl)) (R_ndq _ _ _ _ HR)) as T.
      eapply repr_perm; [exact T|].
      apply (not_ent_perm (inactive (qth_of_hazard h))); [apply (R_ndq _ _ _ _ HR)|apply qtl_unc].
    - pose proof (r_wf _ _ _ _ HR) as W. rewrite app_assoc in *. apply forall_drop in W. exact W.
    - pose proof (r_nd _ _ _ _ HR) as W. unfold ents in *. rewrite app_assoc in *. rewrite map_app in *. cbn [map] in W.
      apply NoDup_remove_1 in W. exact W.
  Qed.

  (** *** finding and removing by entity *)
  Lemma take_ent : forall e (l : list hazard) i, position (ent_is e) l = Some i ->
    exists h l', swap_remove i l = Some (h, l') /\ Permutation l (h :: l') /\ h_ent h = e.
  Proof.
    intros e l i H. apply position_some in H as (l1 & h & l2 & -> & <- & E & _).
    pose proof (swap_remove_spec l1 h l2) as S1. eexists h, _. split; [exact S1|].
    split; [|apply ent_eqb_ok; exact E].
    rewrite (swap_remove_perm _ _ _ _ S1). symmetry. apply Permutation_middle.
  Qed.
  Lemma pos_ent : forall e (l : list hazard), In e (ents l) -> exists i, position (ent_is e) l = Some i.
  Proof.
    intros e l H. destruct (position (ent_is e) l) as [i|] eqn:E; [eauto|exfalso].
    rewrite position_none in E. apply in_map_iff in H as (h & Eh & Hh). specialize (E h Hh).
    unfold ent_is in E. rewrite Eh, ent_eqb_refl in E. discriminate.
  Qed.
  Lemma pos_none : forall e (l : list hazard), position (ent_is e) l = None <-> ~ In e (ents l).
  Proof.
    intros e l. rewrite position_none. split.
    - intros H Hin. apply in_map_iff in Hin as (h & Eh & Hh). specialize (H h Hh).
      unfold ent_is in H. rewrite Eh, ent_eqb_refl in H. discriminate.
    - intros H h Hh. unfold ent_is. destruct (ent_eqb (h_ent h) e) eqn:E; [|reflexivity].
      apply ent_eqb_ok in E. exfalso. apply H. rewrite <- E. apply in_map; exact Hh.
  Qed.

  (** *** the operations *)
  Lemma cde_new_ok : forall statics n_cells,
    Forall wf_hazard statics -> NoDup (ents statics) ->
    exists qt,
      cde_new bb statics lvl n_cells =
      (g <- match n_cells with 0 => Ok None
            | _ => g <- hpg_new bb statics n_cells ;; Ok (Some g) end ;;
       Ok (Cde qt statics [] g bb [])) /\
      R qt statics [] [].
  Proof.
    intros statics n W ND.
    assert (K : forall l, Forall wf_hazard l -> forall st qt, R qt st [] [] ->
              NoDup (ents (st ++ l)) -> incl (st ++ l) statics ->
              exists qt', rfold (qt_register (owned statics)) l qt = Ok qt' /\ R qt' (st ++ l) [] []).
    { intros l Wl. induction Wl as [|h l Wh Wl IH]; intros st qt HR NDl I.
      - exists qt. rewrite app_nil_r. split; [reflexivity|exact HR].
      - cbn [rfold]. destruct (R_register (owned statics) qt st [] [] h HR Wh) as (qt1 & E & R1).
        + rewrite !app_nil_r. unfold ents in NDl. rewrite map_app in NDl. cbn [map] in NDl.
          apply NoDup_remove_2 in NDl. intros X. apply NDl. apply in_or_app. left; exact X.
        + intros x Hx. apply owned_in. apply I. rewrite !app_nil_r in Hx.
          apply in_or_app. destruct Hx as [<-|Hx]; [right; left; reflexivity|left; exact Hx].
        + rewrite E. cbn [rbind].
          assert (R2 : R qt1 (st ++ [h]) [] []).
          { destruct R1 as [A B C]. unfold qtl in *. cbn [app] in *. rewrite !app_nil_r in *.
            split; unfold qtl; rewrite ?app_nil_r; assumption. }
          destruct (IH (st ++ [h]) qt1 R2) as (qt' & E' & R').
          * rewrite <- app_assoc. exact NDl.
          * rewrite <- app_assoc. exact I.
          * exists qt'. rewrite <- app_assoc in R'. split; [exact E'|exact R']. }
    destruct (K statics W [] (node_new lvl bb)) as (qt & E & R').
    - split; [apply repr_new|constructor|constructor].
    - exact ND.
    - apply incl_refl.
    - exists qt. unfold cde_new. rewrite E. split; [|exact R'].
      match goal with |- (rbind ?x _) = (rbind ?x _) => destruct x; reflexivity end.
  Qed.

  Lemma cde_register_ok : forall c h, inv c -> wf_hazard h ->
    ~ In (h_ent h) (ents (cd_static c ++ cd_dyn c)) ->
    exists qt unc h',
      cde_register c h =
        (g <- opt_hpg (fun g => hpg_register g h') (cd_hpg c) ;;
         Ok (Cde qt (cd_static c) (cd_dyn c ++ [h']) g bb unc)) /\
      R qt (cd_static c) (cd_dyn c ++ [h']) unc /\
      ((h' = h /\ unc = cd_unc c /\ ~ In (h_ent h) (ents (cd_unc c))) \/
       (h_ent h' = h_ent h /\ Permutation (cd_unc c) (h' :: unc))).
  Proof.
    intros c h I W Nh. unfold cde_register.
    destruct (position (ent_is (h_ent h)) (cd_unc c)) as [i|] eqn:P.
    - destruct (take_ent _ _ _ P) as (u & unc & -> & Pm & Eu). cbn [expect rbind].
      exists (node_activate (cd_qt c) (h_ent u)), unc, u. rewrite (inv_bbox lvl bb c I).
      split; [reflexivity|]. split.
      + apply R_perm with (u :: cd_dyn c) unc; [|apply Permutation_cons_append|reflexivity].
        apply R_activate. eapply R_perm; [apply inv_R; exact I|reflexivity|exact Pm].
      + right. auto.
    - apply pos_none in P.
      destruct (R_register (owned (h :: cd_static c ++ cd_dyn c ++ cd_unc c))
                  _ _ _ _ h (inv_R c I) W) as (qt & E & HR).
      + unfold ents in *. rewrite app_assoc, map_app. intros X. apply in_app_or in X as [X|X]; auto.
      + intros x Hx. apply owned_in. exact Hx.
      + rewrite E. cbn [rbind]. exists qt, (cd_unc c), h. rewrite (inv_bbox lvl bb c I).
        split; [reflexivity|]. split; [exact HR|]. left. auto.
  Qed.

  Lemma cde_deregister_ok : forall c e (ci : bool), inv c -> In e (ents (cd_dyn c)) ->
    exists h dyn qt,
      Permutation (cd_dyn c) (h :: dyn) /\ h_ent h = e /\
      cde_deregister c e ci =
        (g <- opt_hpg (fun g => hpg_deregister g e dyn ci) (cd_hpg c) ;;
         Ok (Cde qt (cd_static c) dyn g bb (if ci then cd_unc c else cd_unc c ++ [h]))) /\
      R qt (cd_static c) dyn (if ci then cd_unc c else cd_unc c ++ [h]).
  Proof.
    intros c e ci I He. unfold cde_deregister.
    destruct (pos_ent _ _ He) as (i & P). rewrite P. cbn [expect rbind].
    destruct (take_ent _ _ _ P) as (h & dyn & -> & Pm & Eh). cbn [expect rbind].
    assert (R0 : R (cd_qt c) (cd_static c) (h :: dyn) (cd_unc c))
      by (eapply R_perm; [apply inv_R; exact I|exact Pm|reflexivity]).
    rewrite (inv_bbox lvl bb c I).
    exists h, dyn, (if ci then node_deregister (cd_qt c) e else node_deactivate (cd_qt c) e).
    split; [exact Pm|]. split; [exact Eh|]. subst e.
    destruct ci; (split; [reflexivity|]).
    - apply R_drop_dyn. exact R0.
    - eapply R_perm; [apply R_deactivate; exact R0|reflexivity|apply Permutation_cons_append].
  Qed.

  Lemma cde_commit_ok : forall c, inv c ->
    exists qt,
      cde_commit c = (g <- opt_hpg (fun g => hpg_flush g (cd_dyn c)) (cd_hpg c) ;;
                      Ok (Cde qt (cd_static c) (cd_dyn c) g bb [])) /\
      R qt (cd_static c) (cd_dyn c) [].
  Proof.
    intros c I. unfold cde_commit. rewrite (inv_bbox lvl bb c I). eexists. split; [reflexivity|].
    pose proof (inv_R c I) as HR. revert HR. generalize (cd_qt c) as qt.
    induction (cd_unc c) as [|u unc IH]; intros qt HR; cbn [fold_left]; [exact HR|].
    apply IH. apply R_drop_unc. exact HR.
  Qed.

  Lemma cde_flush_ok : forall c, inv c ->
    cde_flush c = (g <- opt_hpg (fun g => hpg_flush g (cd_dyn c)) (cd_hpg c) ;;
                   Ok (Cde (cd_qt c) (cd_static c) (cd_dyn c) g bb (cd_unc c))).
  Proof. intros c I. unfold cde_flush. rewrite (inv_bbox lvl bb c I). reflexivity. Qed.

  Lemma NoDup_app_l : forall {A} (l l' : list A), NoDup (l ++ l') -> NoDup l.
  Proof.
    induction l as [|y l IH]; intros l' H; [constructor|]. cbn [app] in H. inversion H; subst.
    constructor; [|eapply IH; eassumption]. intros X. apply H2, in_or_app; left; exact X.
  Qed.
  Lemma NoDup_app_r : forall {A} (l l' : list A), NoDup (l ++ l') -> NoDup l'.
  Proof.
    induction l as [|y l IH]; intros l' H; [exact H|]. cbn [app] in H. inversion H; subst. apply IH; assumption.
  Qed.
  Lemma NoDup_app_dis : forall {A} (l l' : list A) x, NoDup (l ++ l') -> In x l -> ~ In x l'.
  Proof.
    induction l as [|y l IH]; intros l' x H Hx; [destruct Hx|]. cbn [app] in H.
    inversion H; subst. destruct Hx as [<-|Hx]; [|apply IH; assumption].
    intros X. apply H2, in_or_app; right; exact X.
  Qed.

  (** *** restoring *)
  Lemma iset_collect_nodup : forall (l : list entity), NoDup l -> iset_collect ent_eqb l = l.
  Proof.
    intros l ND. unfold iset_collect.
    assert (K : forall l seen, NoDup (seen ++ l) -> iset_collect_from ent_eqb seen l = l).
    { clear. induction l as [|x l IH]; intros seen ND; cbn [iset_collect_from]; [reflexivity|].
      replace (existsb (ent_eqb x) seen) with false.
      - f_equal. apply IH. rewrite <- app_assoc. exact ND.
      - symmetry. apply existsb_false. intros y Hy. destruct (ent_eqb x y) eqn:E; [|reflexivity].
        apply ent_eqb_ok in E. subst y. apply NoDup_remove_2 in ND. exfalso. apply ND.
        apply in_or_app. left; exact Hy. }
    apply K. exact ND.
  Qed.

  Lemma iset_remove : forall (x : entity) l, NoDup l ->
    let '(b, l') := iset_swap_remove ent_eqb x l in
    (b = true /\ Permutation l (x :: l')) \/ (b = false /\ ~ In x l /\ l' = l).
  Proof.
    intros x l ND. unfold iset_swap_remove. destruct (position (ent_eqb x) l) as [i|] eqn:P.
    - apply position_some in P as (l1 & y & l2 & -> & <- & E & _). apply ent_eqb_ok in E. subst y.
      pose proof (swap_remove_spec l1 x l2) as S1. rewrite S1. left. split; [reflexivity|].
      rewrite (swap_remove_perm _ _ _ _ S1). symmetry. apply Permutation_middle.
    - right. split; [reflexivity|]. split; [|reflexivity]. rewrite position_none in P.
      intros H. specialize (P x H). rewrite ent_eqb_refl in P. discriminate.
  Qed.

  Definition has (l : list entity) (e : entity) : bool := memb ent_eqb e l.
  Lemma has_in : forall l e, has l e = true <-> In e l.
  Proof. intros. apply memb_ent. Qed.

  Lemma restore_split_ok : forall sn rem add, NoDup rem -> NoDup (ents sn) ->
    let '(rem', add') := fold_left restore_split sn (rem, add) in
    NoDup rem' /\
    (forall e, In e rem' <-> In e rem /\ ~ In e (ents sn)) /\
    add' = add ++ filter (fun h : hazard => negb (has rem (h_ent h))) sn.
  Proof.
    induction sn as [|h sn IH]; intros rem add ND NDs.
    - cbn [fold_left]. split; [exact ND|]. split; [|symmetry; apply app_nil_r].
      intros e; split; [intros H; split; [exact H|intros []]|intros (H & _); exact H].
    - cbn [fold_left]. pose proof (iset_remove (h_ent h) rem ND) as K.
      unfold restore_split at 2. destruct (iset_swap_remove ent_eqb (h_ent h) rem) as [b rem1].
      cbn [ents map] in NDs. inversion NDs as [|? ? Nh NDs']; subst.
      assert (Same : forall rem1, Permutation rem (h_ent h :: rem1) ->
                forall x, In x sn -> has rem (h_ent x) = has rem1 (h_ent x)).
      { intros r1 P x Hx. destruct (has r1 (h_ent x)) eqn:E.
        - apply has_in. apply has_in in E. eapply Permutation_in; [symmetry; exact P|right; exact E].
        - destruct (has rem (h_ent x)) eqn:E'; [|reflexivity]. apply has_in in E'.
          eapply Permutation_in in E'; [|exact P]. destruct E' as [E'|E'].
          + exfalso. apply Nh. rewrite E'. apply in_map; exact Hx.
          + apply has_in in E'. congruence. }
      destruct K as [(-> & P)|(-> & Nin & ->)].
      + assert (ND1 : NoDup (h_ent h :: rem1)) by (eapply Permutation_NoDup; eassumption).
        inversion ND1 as [|? ? Nr ND1']; subst.
        specialize (IH rem1 add ND1' NDs'). destruct (fold_left restore_split sn (rem1, add)) as [rem' add'].
        destruct IH as (I1 & I2 & I3). split; [exact I1|]. split.
        * intros e. rewrite I2. cbn [ents map]. split.
          -- intros (A & B). split; [eapply Permutation_in; [symmetry; exact P|right; exact A]|].
             intros [<-|X]; [contradiction|contradiction].
          -- intros (A & B). eapply Permutation_in in A; [|exact P]. destruct A as [<-|A].
             ++ exfalso. apply B. left; reflexivity.
             ++ split; [exact A|]. intros X. apply B. right; exact X.
        * rewrite I3. f_equal. cbn [filter].
          replace (has rem (h_ent h)) with true
            by (symmetry; apply has_in; eapply Permutation_in; [symmetry; exact P|left; reflexivity]).
          cbn [negb]. apply filter_ext_in. intros x Hx. rewrite (Same rem1 P x Hx). reflexivity.
      + specialize (IH rem (add ++ [h]) ND NDs'). destruct (fold_left restore_split sn (rem, add ++ [h])) as [rem' add'].
        destruct IH as (I1 & I2 & I3). split; [exact I1|]. split.
        * intros e. rewrite I2. cbn [ents map]. split.
          -- intros (A & B). split; [exact A|]. intros [<-|X]; contradiction.
          -- intros (A & B). split; [exact A|]. intros X. apply B. right; exact X.
        * rewrite I3, <- app_assoc. f_equal. cbn [filter].
          replace (has rem (h_ent h)) with false; [reflexivity|].
          symmetry. destruct (has rem (h_ent h)) eqn:E; [apply has_in in E; contradiction|reflexivity].
  Qed.

  Lemma ents_perm : forall l l', Permutation l l' -> Permutation (ents l) (ents l').
  Proof. intros. apply Permutation_map. assumption. Qed.

  Lemma restore_remove_ok : forall st unc rem qt dyn, R qt st dyn unc -> NoDup rem ->
    (forall e, In e rem -> In e (ents dyn)) ->
    exists qt' dyn', rfold restore_remove rem (qt, dyn) = Ok (qt', dyn') /\
      R qt' st dyn' unc /\ incl dyn' dyn /\
      (forall e, In e (ents dyn') <-> In e (ents dyn) /\ ~ In e rem).
  Proof.
    intros st unc. induction rem as [|e rem IH]; intros qt dyn HR ND Hin; cbn [rfold].
    - exists qt, dyn. split; [reflexivity|]. split; [exact HR|]. split; [apply incl_refl|].
      intros e. split; [intros H; split; [exact H|intros []]|intros (H & _); exact H].
    - inversion ND as [|? ? Ne ND']; subst.
      unfold restore_remove at 1.
      destruct (pos_ent e dyn (Hin e (or_introl eq_refl))) as (i & P). rewrite P. cbn [expect rbind].
      destruct (take_ent _ _ _ P) as (h & dyn1 & -> & Pm & Eh). cbn [expect rbind].
      assert (R1 : R (node_deregister qt e) st dyn1 unc).
      { rewrite <- Eh. apply R_drop_dyn. eapply R_perm; [exact HR|exact Pm|reflexivity]. }
      pose proof (ents_perm _ _ Pm) as Pe. cbn [ents map] in Pe.
      assert (Nd : ~ In e (ents dyn1)).
      { pose proof (r_nd _ _ _ _ HR) as ND0. unfold ents in ND0. rewrite !map_app in ND0.
        assert (NDd : NoDup (ents dyn)).
        { clear -ND0. unfold ents. revert ND0. generalize (map (@h_ent F D) dyn) (map (@h_ent F D) unc).
          intros a b H. apply NoDup_app_r in H. apply NoDup_app_l in H. exact H. }
        apply (Permutation_NoDup Pe) in NDd. inversion NDd; subst. assumption. }
      destruct (IH (node_deregister qt e) dyn1 R1 ND') as (qt' & dyn' & E & R' & Inc & Hm).
      + intros x Hx. specialize (Hin x (or_intror Hx)). eapply Permutation_in in Hin; [|exact Pe].
        destruct Hin as [<-|Hin]; [|exact Hin]. exfalso. rewrite Eh in Hx. contradiction.
      + exists qt', dyn'. split; [exact E|]. split; [exact R'|]. split.
        * intros x Hx. eapply Permutation_in; [symmetry; exact Pm|right; apply Inc; exact Hx].
        * intros x. rewrite Hm. split.
          -- intros (A & B). split; [eapply Permutation_in; [symmetry; exact Pe|right; exact A]|].
             intros [<-|X]; contradiction.
          -- intros (A & B). eapply Permutation_in in A; [|exact Pe]. destruct A as [<-|A].
             ++ exfalso. apply B. left. symmetry; exact Eh.
             ++ split; [exact A|]. intros X. apply B. right; exact X.
  Qed.

  Lemma restore_unc_ok : forall st unc qt dyn add, R qt st dyn unc -> NoDup (ents add) ->
    (forall e, In e (ents add) -> ~ In e (ents dyn)) ->
    exists qt' dyn' add', rfold restore_unc unc (qt, dyn, add) = Ok (qt', dyn', add') /\
      R qt' st dyn' [] /\ incl dyn' (dyn ++ unc) /\ incl add' add /\ NoDup (ents add') /\
      (forall e, In e (ents add') -> ~ In e (ents dyn')) /\
      (forall e, In e (ents (dyn' ++ add')) <-> In e (ents (dyn ++ add))).
  Proof.
    intros st. induction unc as [|u unc IH]; intros qt dyn add HR ND Dis; cbn [rfold].
    - exists qt, dyn, add. split; [reflexivity|]. split; [exact HR|].
      split; [apply incl_appl, incl_refl|]. split; [apply incl_refl|]. split; [exact ND|].
      split; [exact Dis|]. intros; reflexivity.
    - unfold restore_unc at 1.
      destruct (position (ent_is (h_ent u)) add) as [pos|] eqn:P.
      + destruct (take_ent _ _ _ P) as (h & add1 & -> & Pm & Eh). cbn [expect rbind].
        pose proof (ents_perm _ _ Pm) as Pe. cbn [ents map] in Pe.
        pose proof (Permutation_NoDup Pe ND) as ND1. inversion ND1 as [|? ? Nh ND1']; subst.
        assert (R1 : R (node_activate qt (h_ent u)) st (dyn ++ [u]) unc).
        { eapply R_perm; [apply R_activate; exact HR|apply Permutation_cons_append|reflexivity]. }
        destruct (IH _ _ add1 R1 ND1') as (qt' & dyn' & add' & E & R' & Inc & Inca & NDa & Dis' & Hm).
        * intros e He X. unfold ents in X. rewrite map_app in X. apply in_app_or in X as [X|[X|[]]].
          -- apply (Dis e); [|exact X]. eapply Permutation_in; [symmetry; exact Pe|right; exact He].
          -- subst e. rewrite <- Eh in He. contradiction.
        * exists qt', dyn', add'. split; [exact E|]. split; [exact R'|]. split.
          { intros x Hx. apply Inc in Hx. rewrite <- app_assoc in Hx. exact Hx. }
          split; [intros x Hx; eapply Permutation_in; [symmetry; exact Pm|right; apply Inca; exact Hx]|].
          split; [exact NDa|]. split; [exact Dis'|].
          intros e. rewrite Hm. unfold ents in *. rewrite !map_app. cbn [map]. rewrite <- app_assoc. cbn [app].
          rewrite <- Eh. rewrite !in_app_iff. split; intros [A|A]; auto; right.
          -- eapply Permutation_in; [symmetry; exact Pe|exact A].
          -- eapply Permutation_in; [exact Pe|exact A].
      + cbn [rbind].
        destruct (IH _ _ add (R_drop_unc _ _ _ _ _ HR) ND Dis)
          as (qt' & dyn' & add' & E & R' & Inc & Inca & NDa & Dis' & Hm).
        exists qt', dyn', add'. split; [exact E|]. split; [exact R'|]. split.
        { intros x Hx. apply Inc in Hx. apply in_app_or in Hx as [Hx|Hx]; apply in_or_app; auto.
          right; right; exact Hx. }
        auto.
  Qed.

  Lemma restore_add_ok : forall al st add qt dyn, R qt st dyn [] ->
    Forall wf_hazard add -> NoDup (ents (st ++ dyn ++ add)) ->
    (forall x, In x (st ++ dyn ++ add) -> al (a_ptr (h_shape x)) = true) ->
    exists qt', rfold (restore_add al) add (qt, dyn) = Ok (qt', dyn ++ add) /\
      R qt' st (dyn ++ add) [].
  Proof.
    intros al st. induction add as [|h add IH]; intros qt dyn HR W ND Hal; cbn [rfold].
    - exists qt. rewrite app_nil_r. auto.
    - inversion W as [|? ? Wh W']; subst. unfold restore_add at 1.
      destruct (R_register al qt st dyn [] h HR Wh) as (qt1 & E & R1).
      + rewrite app_nil_r. unfold ents in *. rewrite app_assoc, map_app in ND. cbn [map] in ND.
        apply NoDup_remove_2 in ND. intros X. apply ND, in_or_app. left; exact X.
      + intros x [<-|Hx]; apply Hal.
        * apply in_or_app; right; apply in_or_app; right; left; reflexivity.
        * rewrite app_nil_r in Hx. apply in_app_or in Hx as [Hx|Hx]; apply in_or_app; [left|right; apply in_or_app; left]; exact Hx.
      + rewrite E. cbn [rbind].
        replace (dyn ++ h :: add) with ((dyn ++ [h]) ++ add) in * by (rewrite <- app_assoc; reflexivity).
        apply (IH qt1 (dyn ++ [h]) R1 W' ND Hal).
  Qed.

  Definition snap_ok (st : list hazard) (s : snapshot) : Prop :=
    Forall wf_hazard (sn_dyn s) /\ NoDup (ents (st ++ sn_dyn s)).

  Lemma cde_restore_ok : forall c s, inv c -> snap_ok (cd_static c) s ->
    exists qt dyn,
      cde_restore c s =
        (g <- opt_hpg (fun g => gr <- expect (sn_grid s) ;; hpg_restore g gr) (cd_hpg c) ;;
         Ok (Cde qt (cd_static c) dyn g bb [])) /\
      R qt (cd_static c) dyn [] /\
      incl dyn (cd_dyn c ++ cd_unc c ++ sn_dyn s) /\
      Permutation (ents dyn) (ents (sn_dyn s)).
  Proof.
    intros c s I (Ws & NDs). pose proof (inv_R c I) as HR. unfold cde_restore.
    pose proof (r_nd _ _ _ _ HR) as ND0. unfold ents in ND0. rewrite !map_app in ND0.
    assert (NDd : NoDup (ents (cd_dyn c))).
    { unfold ents. apply NoDup_app_r in ND0. apply NoDup_app_l in ND0. exact ND0. }
    pose proof NDs as NDs'. unfold ents in NDs'. rewrite map_app in NDs'. pose proof (NoDup_app_r _ _ NDs') as NDsn.
    change (map (@h_ent F D) (cd_dyn c)) with (ents (cd_dyn c)). cbv zeta.
    rewrite (iset_collect_nodup _ NDd).
    pose proof (restore_split_ok (sn_dyn s) (ents (cd_dyn c)) [] NDd NDsn) as K.
    destruct (fold_left restore_split (sn_dyn s) (ents (cd_dyn c), [])) as [rem add].
    destruct K as (NDr & Hrem & Eadd). cbn [app] in Eadd.
    destruct (restore_remove_ok (cd_static c) (cd_unc c) rem (cd_qt c) (cd_dyn c) HR NDr)
      as (qt1 & dyn1 & E1 & R1 & Inc1 & Hm1).
    { intros e He. apply Hrem in He. apply He. }
    rewrite E1. cbn [rbind].
    assert (Ina : incl add (sn_dyn s)).
    { subst add. intros x Hx. apply filter_In in Hx. apply Hx. }
    assert (NDa : NoDup (ents add)).
    { subst add. clear -NDsn. unfold ents in *. induction (sn_dyn s) as [|h l IH]; cbn [filter map]; [constructor|].
      cbn [map] in NDsn. inversion NDsn as [|? ? Nh ND]; subst.
      destruct (negb _); cbn [map]; [constructor|]; auto. intros X. apply Nh.
      apply in_map_iff in X as (y & <- & Hy). apply filter_In in Hy. apply in_map. apply Hy. }
    assert (Dis : forall e, In e (ents add) -> ~ In e (ents dyn1)).
    { intros e He X. apply Hm1 in X as (X & _). subst add. apply in_map_iff in He as (h & <- & Hh).
      apply filter_In in Hh as (_ & Hh). apply negb_true_iff in Hh.
      apply has_in in X. congruence. }
    destruct (restore_unc_ok (cd_static c) (cd_unc c) qt1 dyn1 add R1 NDa Dis)
      as (qt2 & dyn2 & add2 & E2 & R2 & Inc2 & Inca2 & NDa2 & Dis2 & Hm2).
    rewrite E2. cbn [rbind].
    assert (Hset : forall e, In e (ents (dyn2 ++ add2)) <-> In e (ents (sn_dyn s))).
    { intros e. rewrite Hm2. unfold ents. rewrite map_app, in_app_iff. fold (ents dyn1) (ents add).
      rewrite Hm1, Hrem. subst add. split.
      - intros [(A & B)|A].
        + destruct (has (ents (sn_dyn s)) e) eqn:X; [apply has_in in X; exact X|].
          exfalso. apply B. split; [exact A|]. intros Y. apply has_in in Y. congruence.
        + apply in_map_iff in A as (h & <- & Hh). apply filter_In in Hh. apply in_map. apply Hh.
      - intros A. destruct (has (ents (cd_dyn c)) e) eqn:X.
        + left. apply has_in in X. split; [exact X|]. intros (_ & Y). contradiction.
        + right. apply in_map_iff in A as (h & <- & Hh). apply in_map. apply filter_In.
          split; [exact Hh|]. rewrite X. reflexivity. }
    assert (ND2 : NoDup (ents (cd_static c ++ dyn2 ++ add2))).
    { unfold ents. rewrite map_app. apply NoDup_app.
      - apply NoDup_app_l in NDs'. exact NDs'.
      - rewrite map_app. apply NoDup_app.
        + pose proof (r_nd _ _ _ _ R2) as X. rewrite app_nil_r in X. unfold ents in X. rewrite map_app in X.
          apply NoDup_app_r in X. exact X.
        + exact NDa2.
        + intros x Hx X. apply (Dis2 x X Hx).
      - intros x Hx X. apply Hset in X. apply (NoDup_app_dis _ _ x NDs' Hx X). }
    destruct (restore_add_ok (owned (cd_static c ++ dyn2 ++ add2)) (cd_static c) add2 qt2 dyn2 R2)
      as (qt3 & E3 & R3).
    - rewrite Forall_forall in *. intros x Hx. apply Ws, Ina, Inca2, Hx.
    - exact ND2.
    - intros x Hx. apply owned_in. exact Hx.
    - rewrite E3. cbn [rbind]. rewrite (inv_bbox lvl bb c I).
      exists qt3, (dyn2 ++ add2). split; [reflexivity|]. split; [exact R3|]. split.
      + intros x Hx. apply in_app_or in Hx as [Hx|Hx].
        * apply Inc2 in Hx. apply in_app_or in Hx as [Hx|Hx]; apply in_or_app.
          -- left. apply Inc1, Hx.
          -- right. apply in_or_app. left; exact Hx.
        * apply in_or_app. right. apply in_or_app. right. apply Ina, Inca2, Hx.
      + apply NoDup_Permutation; [|exact NDsn|exact Hset].
        unfold ents in ND2. rewrite map_app in ND2. apply NoDup_app_r in ND2. exact ND2.
  Qed.
End CO.
