(** The collision engine of a layout mirrors its placed items. *)
From Coq Require Import List Bool Arith ZArith Lia Permutation.
From Verif Require Import Base Num GeoModel HazardModel QTModel TransfModel HpgModel CdeModel
  PolyModel SlotMapModel LayoutModel ProblemModel ProblemSpec BaseProofs HazVecProofs QTProofs
  CdeProofs CdeOpsProofs CdeSpec CdeHistProofs CdeThmProofs SlotMapProofs ProblemProofs ProblemOpsProofs.
Import ListNotations.

Section LP.
  Context {F : Type} {N : Num F} {D : Type} {ED : EqD D} {BS : BSearch} {DC : DComp F D}.
  Hypothesis BSok : bsearch_ok BS.
  Local Notation hazard := (hazard F D).
  Local Notation entity := (entity D).
  Local Notation item := (item F).
  Local Notation bin := (bin F D).
  Local Notation layout := (layout F D).
  Local Notation lsnap := (lsnap F D).
  Local Notation pitem := (pitem F D).
  Local Notation poly := (poly F).
  Local Notation fact := (fact F D).

  (** *** bins *)
  Definition is_placed (e : entity) : Prop := match e with PlacedItem _ _ => True | _ => False end.
  Lemma arcs_ents : forall mk (l : list (arc F)),
    map (@h_ent F D) (arcs_hazards mk l) = map mk (seq 0 (length l)).
  Proof.
    intros mk l. unfold arcs_hazards. rewrite map_map. cbn [hazard_new h_ent]. generalize 0.
    induction l as [|x l IH]; intros n; cbn; [reflexivity|]. f_equal. apply IH.
  Qed.
  Lemma zone_array_idx : forall zs a, (forall i z, nth_error a i = Some (Some z) -> qz_quality z = i) ->
    forall i z, nth_error (fold_left (fun a z => vset (qz_quality z) (Some z) a) zs a) i = Some (Some z) ->
    @qz_quality F z = i.
  Proof.
    induction zs as [|y zs IH]; intros a H i z E; cbn [fold_left] in E; [auto|].
    eapply IH; [|exact E]. clear -H. intros i z E. destruct (Nat.eq_dec (qz_quality y) i) as [<-|Hn].
    - destruct (Nat.ltb (qz_quality y) (length a)) eqn:L; [apply Nat.ltb_lt in L|apply Nat.ltb_ge in L].
      + rewrite nth_error_vset_eq in E by exact L. injection E as <-. reflexivity.
      + assert (X : qz_quality y < length (vset (qz_quality y) (Some y) a)) by (apply nth_error_Some; congruence).
        rewrite vset_length in X. lia.
    - rewrite nth_error_vset_neq in E by exact Hn. auto.
  Qed.
  Lemma zone_quals : forall (a : list (option (qzone F))) n,
    (forall i z, nth_error a i = Some (Some z) -> qz_quality z = n + i) ->
    NoDup (map (@qz_quality F) (omap (fun z => z) a)) /\
    forall z, In z (omap (fun z => z) a) -> n <= qz_quality z.
  Proof.
    induction a as [|x a IH]; intros n H; cbn [omap map]; [split; [constructor|intros z []]|].
    destruct (IH (S n)) as (A & B).
    { intros i z E. rewrite (H (S i) z E). lia. }
    destruct x as [z|].
    - pose proof (H 0 z eq_refl) as Ez. cbn [map]. split.
      + constructor; [|exact A]. intros X. apply in_map_iff in X as (z' & E & Hz). specialize (B z' Hz). lia.
      + intros z' [<-|Hz]; [lia|]. specialize (B z' Hz). lia.
    - split; [exact A|]. intros z Hz. specialize (B z Hz). lia.
  Qed.
  Lemma seq_nodup_map : forall {B} (f : nat -> B), (forall i j, f i = f j -> i = j) -> forall n s, NoDup (map f (seq s n)).
  Proof.
    intros B f Hf n. induction n as [|n IH]; intros s; cbn; [constructor|]. constructor; [|apply IH].
    intros X. apply in_map_iff in X as (j & E & Hj). apply Hf in E. subst j. apply in_seq in Hj. lia.
  Qed.
  Lemma zone_ents : forall zs : list (qzone F), NoDup (map (@qz_quality F) zs) ->
    NoDup (map (@h_ent F D) (flat_map (fun z => arcs_hazards (fun i => InferiorQualityZone (qz_quality z) i) (qz_zones z)) zs)).
  Proof.
    induction zs as [|z zs IH]; intros H; cbn [flat_map]; [constructor|]. cbn [map] in H. inversion H as [|? ? Nz H']; subst.
    rewrite map_app. apply nodup_app; auto.
    - rewrite arcs_ents. apply seq_nodup_map. intros i j E. congruence.
    - intros e He He'. rewrite arcs_ents in He. apply in_map_iff in He as (i & <- & _).
      apply in_map_iff in He' as (h & Eh & Hh). apply in_flat_map in Hh as (z' & Hz' & Hh).
      apply (in_map (@h_ent F D)) in Hh. rewrite arcs_ents in Hh. apply in_map_iff in Hh as (j & Ej & _).
      apply Nz. rewrite Eh in Ej. injection Ej as Eq _. rewrite <- Eq. apply in_map, Hz'.
  Qed.
  Lemma bin_new_spec : forall id outer value pre holes zs c (b : bin), bin_new id outer value pre holes zs c = Ok b ->
    bn_id b = id /\ bn_outer b = outer /\ bn_holes b = holes /\ bn_cfg b = c /\ bn_zones b = zone_array zs /\
    cde_new (bin_box b) (bin_statics b) (cfg_depth (bn_cfg b)) (cfg_cells (bn_cfg b)) = Ok (bn_cde b).
  Proof.
    intros id outer value pre holes zs c b H. unfold bin_new in H. apply rbind_ok in H as (u & _ & H).
    apply rbind_ok in H as (u' & _ & H). apply rbind_ok in H as (e & E & H). injection H as <-.
    cbn [bn_id bn_outer bn_holes bn_cfg bn_zones bn_cde]. repeat split; auto.
  Qed.
  Lemma bin_nodup : forall b : bin, good_bin b -> NoDup (map (@h_ent F D) (bin_statics b)).
  Proof.
    intros b ((id & outer & value & pre & holes & zs & c & H) & _).
    apply bin_new_spec in H as (_ & _ & _ & _ & Ez & _).
    unfold bin_statics, bin_hazards. cbn [map]. rewrite map_app. constructor.
    - cbn [hazard_new h_ent]. intros X. apply in_app_or in X as [X|X].
      + rewrite arcs_ents in X. apply in_map_iff in X as (i & E & _). discriminate.
      + apply in_map_iff in X as (h & E & Hh). apply in_flat_map in Hh as (z & _ & Hh).
        apply (in_map (@h_ent F D)) in Hh. rewrite arcs_ents in Hh. apply in_map_iff in Hh as (j & Ej & _). congruence.
    - apply nodup_app.
      + rewrite arcs_ents. apply seq_nodup_map. intros i j E. congruence.
      + apply zone_ents. apply (proj1 (zone_quals (bn_zones b) 0 ltac:(
          intros i z E; rewrite Ez in E; cbn; eapply zone_array_idx; [|exact E];
          intros i0 z0 E0; apply nth_error_In, repeat_spec in E0; discriminate))).
      + intros e He He'. rewrite arcs_ents in He. apply in_map_iff in He as (i & <- & _).
        apply in_map_iff in He' as (h & Eh & Hh). apply in_flat_map in Hh as (z' & _ & Hh).
        apply (in_map (@h_ent F D)) in Hh. rewrite arcs_ents in Hh. apply in_map_iff in Hh as (j & Ej & _). congruence.
  Qed.
  Lemma bin_statics_ok : forall b : bin, good_bin b -> statics_ok (bin_statics b).
  Proof. intros b H. split; [exact (proj2 H)|apply bin_nodup, H]. Qed.
  Lemma bin_not_placed : forall (b : bin) e, In e (map (@h_ent F D) (bin_statics b)) -> ~ is_placed e.
  Proof.
    intros b e H P. unfold bin_statics, bin_hazards in H. cbn [map] in H. rewrite map_app in H.
    destruct H as [<-|H]; [exact P|]. apply in_app_or in H as [H|H].
    - rewrite arcs_ents in H. apply in_map_iff in H as (i & <- & _). exact P.
    - apply in_map_iff in H as (h & <- & Hh). apply in_flat_map in Hh as (z' & _ & Hh).
      apply (in_map (@h_ent F D)) in Hh. rewrite arcs_ents in Hh. apply in_map_iff in Hh as (j & Ej & _).
      rewrite <- Ej in P. exact P.
  Qed.

  (** *** placed items *)
  Variable cat : nat -> poly.
  Definition shpE (e : entity) : poly * bool :=
    match e with PlacedItem i d => (shape_at cat i d, true) | _ => (cat 0, false) end.
  Definition pi_fine (p : pitem) : Prop :=
    a_obj (pi_shape p) = shape_at cat (pi_item p) (pi_dt p) /\ good_poly (a_obj (pi_shape p)).
  Definition pfact (p : pitem) : fact := fact_of (pi_hazard p).
  Definition items_fine (m : smap pitem) : Prop :=
    sm_ok m /\ Forall pi_fine (sm_values m) /\ NoDup (map pi_entity (sm_values m)).
  Lemma pi_denotes : forall p : pitem, pi_fine p -> denotes shpE (pi_hazard p).
  Proof. intros p (E & _). unfold denotes. cbn. rewrite E. reflexivity. Qed.
  Lemma pi_not_static : forall (b : bin) (p : pitem), ~ In (h_ent (pi_hazard p)) (map (@h_ent F D) (bin_statics b)).
  Proof. intros b p H. apply bin_not_placed in H. apply H. exact I. Qed.

  Definition rel_l (b : bin) c sn a :=
    related (cfg_depth (bn_cfg b)) (bin_box b) shpE (bin_statics b) c sn a.
  Definition LI (l : layout) : Prop :=
    good_bin (ly_bin l) /\ items_fine (ly_items l) /\
    rel_l (ly_bin l) (ly_cde l) [] (map pfact (sm_values (ly_items l)), []).
  Definition SI (s : lsnap) : Prop :=
    good_bin (ls_bin s) /\ items_fine (ls_items s) /\
    Permutation (map fact_of (sn_dyn (ls_cde s))) (map pfact (sm_values (ls_items s))) /\
    Forall (denotes shpE) (sn_dyn (ls_cde s)).

  Lemma rel_perm : forall b c sn A A' sv, Permutation A A' -> rel_l b c sn (A, sv) -> rel_l b c sn (A', sv).
  Proof. intros b c sn A A' sv P [H1 H2 H3 H4 H5 H6]. split; cbn [fst snd] in *; auto. etransitivity; eassumption. Qed.
  Lemma rel_drop : forall b c sn A sv, rel_l b c sn (A, sv) -> rel_l b c [] (A, []).
  Proof. intros b c sn A sv [H1 H2 H3 H4 H5 H6]. split; cbn [fst snd] in *; auto. Qed.
  Lemma rel_add : forall b c A s B, rel_l b c [] (A, []) -> snap_ok (bin_statics b) s ->
    Forall (denotes shpE) (sn_dyn s) -> Permutation (map fact_of (sn_dyn s)) B -> rel_l b c [s] (A, [B]).
  Proof. intros b c A s B [H1 H2 H3 H4 H5 H6] So Sd P. split; cbn [fst snd] in *; auto. Qed.
  Lemma pfact_ents : forall l, map f_ent (map pfact l) = map pi_entity l.
  Proof. intros l. rewrite map_map. reflexivity. Qed.

  Lemma new_LI : forall id (b : bin), good_bin b -> LI (layout_new id b).
  Proof.
    intros id b G. split; [exact G|]. split.
    - cbn. split; [exact new_ok|]. split; constructor.
    - cbn [ly_bin ly_cde ly_items layout_new]. pose proof G as ((i & outer & value & pre & holes & zs & c & H) & _).
      apply bin_new_spec in H as (_ & _ & _ & _ & _ & H).
      eapply (new_related BSok); [apply bin_statics_ok, G|exact H].
  Qed.

  Lemma insert_fine : forall m p k m', items_fine m -> pi_fine p -> ~ In (pi_entity p) (map pi_entity (sm_values m)) ->
    sm_insert m p = (k, m') -> items_fine m' /\ Permutation (sm_values m') (p :: sm_values m).
  Proof.
    intros m p k m' (S1 & S2 & S3) Fp Nd E. pose proof (insert_spec m p S1) as (A & _).
    pose proof (insert_perm m p S1) as P. rewrite E in *. cbn [snd] in *. split; [|exact P].
    split; [exact A|]. split.
    - eapply Permutation_Forall; [symmetry; exact P|]. constructor; auto.
    - eapply Permutation_NoDup; [symmetry; apply Permutation_map; exact P|]. cbn. constructor; auto.
  Qed.
  Lemma remove_fine : forall m p k m', items_fine m -> sm_remove m k = Some (p, m') ->
    items_fine m' /\ Permutation (sm_values m) (p :: sm_values m') /\ pi_fine p /\
    ~ In (pi_entity p) (map pi_entity (sm_values m')).
  Proof.
    intros m p k m' (S1 & S2 & S3) E. pose proof (remove_spec _ _ _ _ S1 E) as (A & _).
    pose proof (remove_perm _ _ _ _ S1 E) as P.
    eapply Permutation_Forall in S2; [|exact P]. inversion S2; subst.
    pose proof (Permutation_NoDup (Permutation_map pi_entity P) S3) as X. cbn in X. inversion X; subst.
    split; [split; [exact A|split; assumption]|]. auto.
  Qed.

  Lemma place_LI : forall l it d ptr k l', LI l -> it_shape it = cat (it_id it) ->
    good_poly (shape_at cat (it_id it) d) -> ~ In (it_id it, d) (placed l) ->
    layout_place l it d ptr = Ok (k, l') -> LI l'.
  Proof.
    intros l it d ptr k l' (G & Fi & R) Es Gp Nd H. unfold layout_place in H.
    destruct (sm_insert (ly_items l) (pi_new it d ptr)) as [k0 m] eqn:Ei. apply rbind_ok in H as (c & Ec & H).
    injection H as <- <-.
    set (p := pi_new it d ptr) in *.
    assert (Fp : pi_fine p) by (split; cbn; rewrite Es; [reflexivity|exact Gp]).
    assert (Np : ~ In (pi_entity p) (map pi_entity (sm_values (ly_items l)))).
    { intros X. apply Nd. apply in_map_iff in X as (p' & E & Hp'). unfold pi_entity in E. cbn in E.
      injection E as E1 E2. unfold placed. rewrite <- E1, <- E2. apply in_map_iff. eauto. }
    destruct (insert_fine _ _ _ _ Fi Fp Np Ei) as (Fi' & P).
    split; [exact G|]. split; [exact Fi'|]. cbn [ly_bin ly_cde ly_items].
    assert (St : step (ly_cde l, []) (OReg (pi_hazard p)) = Ok (c, [])) by (cbn [step]; rewrite Ec; reflexivity).
    eapply (step_related BSok) in St; [|exact R|].
    - eapply rel_perm; [|exact St]. cbn [astep]. symmetry. exact (Permutation_map pfact P).
    - cbn [op_ok fst]. split; [exact (proj2 Fp)|]. split; [apply pi_denotes, Fp|]. split; [apply pi_not_static|].
      rewrite pfact_ents. exact Np.
  Qed.
  Lemma remove_LI : forall l k b p l', LI l -> layout_remove l k b = Ok (p, l') -> LI l'.
  Proof.
    intros l k b p l' (G & Fi & R) H. unfold layout_remove in H. apply rbind_ok in H as ([p0 m] & E & H).
    apply expect_ok in E. apply rbind_ok in H as (c & Ec & H). injection H as -> <-.
    destruct (remove_fine _ _ _ _ Fi E) as (Fi' & P & Fp & Np).
    split; [exact G|]. split; [exact Fi'|]. cbn [ly_bin ly_cde ly_items].
    assert (St : step (ly_cde l, []) (ODereg (pi_entity p) b) = Ok (c, [])) by (cbn [step]; rewrite Ec; reflexivity).
    eapply (step_related BSok) in St; [|exact R|].
    - eapply rel_perm; [|exact St]. cbn [astep].
      pose proof (Permutation_map pfact P) as P'. cbn [map] in P'.
      change (pi_entity p) with (h_ent (pi_hazard p)). symmetry.
      pose proof (without_perm (pi_hazard p) (map pi_hazard (sm_values m)) (map pfact (sm_values (ly_items l)))) as W.
      rewrite map_map in W. apply W.
      + unfold ents. cbn [map]. rewrite map_map. constructor; [exact Np|]. exact (proj2 (proj2 Fi')).
      + cbn [map]. rewrite map_map. symmetry. exact P'.
    - cbn [op_ok fst]. rewrite pfact_ents. eapply Permutation_in; [symmetry; apply (Permutation_map pi_entity P)|].
      left. reflexivity.
  Qed.
  Lemma change_bin_LI : forall l b l', LI l -> good_bin b -> layout_change_bin l b = Ok l' -> LI l'.
  Proof.
    intros l b l' (G & Fi & R) Gb H. unfold layout_change_bin in H. apply rbind_ok in H as (c & Ec & H).
    injection H as <-. split; [exact Gb|]. split; [exact Fi|]. cbn [ly_bin ly_cde ly_items].
    pose proof (new_LI 0 b Gb) as (_ & _ & R0). cbn [ly_bin ly_cde ly_items layout_new] in R0.
    change (rel_l b (bn_cde b) [] ([], [])) in R0.
    destruct Fi as (S1 & S2 & S3).
    assert (Run : forall ps c0, rfold (fun c p => cde_register c (pi_hazard p)) ps c0 = Ok c ->
              rfold step (map (fun h => OReg h) (map pi_hazard ps)) (c0, []) = Ok (c, [])).
    { clear. induction ps as [|p ps IH]; intros c0 H; cbn [rfold map] in *; [injection H as ->; reflexivity|].
      apply rbind_ok in H as (c1 & E & H). cbn [step]. rewrite E. cbn [rbind]. apply IH, H. }
    apply Run in Ec. clear Run.
    assert (V : ops_ok shpE (bin_statics b) ([], []) (map (fun h => OReg h) (map pi_hazard (sm_values (ly_items l))))).
    { apply fresh_ok.
      - rewrite Forall_map. eapply Forall_impl; [|exact S2]. intros p Hp. exact (proj2 Hp).
      - rewrite Forall_map. eapply Forall_impl; [|exact S2]. intros p Hp. apply pi_denotes, Hp.
      - rewrite map_app. apply nodup_app.
        + apply bin_nodup, Gb.
        + rewrite map_map. exact S3.
        + intros e He He'. rewrite map_map in He'. apply in_map_iff in He' as (p & <- & _).
          eapply pi_not_static. exact He.
      - intros h _ []. }
    pose proof (run_related BSok _ _ shpE _ _ _ _ _ _ _ R0 V Ec) as R1.
    assert (K : forall (hs : list hazard) A sv, exists sv',
       fold_left astep (map (fun h => OReg h) hs) (A, sv) = (rev (map fact_of hs) ++ A, sv')).
    { clear. induction hs as [|h hs IH]; intros A sv; cbn [map fold_left astep]; [eauto|].
      cbn [rev]. rewrite <- app_assoc. apply IH. }
    destruct (K (map pi_hazard (sm_values (ly_items l))) [] []) as (sv' & Ek). rewrite Ek in R1.
    eapply rel_drop. eapply rel_perm; [|exact R1].
    rewrite app_nil_r, <- Permutation_rev, map_map. reflexivity.
  Qed.
  Lemma snap_SI : forall l s l', LI l -> layout_snapshot l = Ok (s, l') -> LI l' /\ SI s.
  Proof.
    intros l s l' (G & Fi & R) H. unfold layout_snapshot in H. apply rbind_ok in H as ([sn c] & Ec & H).
    injection H as <- <-.
    assert (St : step (ly_cde l, []) OSnap = Ok (c, [sn])) by (cbn [step]; rewrite Ec; reflexivity).
    eapply (step_related BSok) in St; [|exact R|exact I]. cbn [astep app] in St.
    split.
    - split; [exact G|]. split; [exact Fi|]. cbn [ly_bin ly_cde ly_items]. eapply rel_drop. exact St.
    - split; [exact G|]. split; [exact Fi|]. cbn [ls_cde ls_items].
      pose proof (rl_snaps _ _ _ _ _ _ _ St) as Sn. cbn [snd] in Sn. inversion Sn; subst.
      pose proof (rl_snap_ok _ _ _ _ _ _ _ St) as So. inversion So as [|? ? (_ & Sd)]; subst. auto.
  Qed.
  Lemma SI_snap_ok : forall s (b : bin), SI s -> good_bin b -> snap_ok (bin_statics b) (ls_cde s).
  Proof.
    intros s b (_ & (S1 & S2 & S3) & P & Sd) Gb. split.
    - rewrite Forall_forall. intros h Hh. apply (in_map fact_of) in Hh.
      eapply Permutation_in in Hh; [|exact P]. apply in_map_iff in Hh as (p & E & Hp).
      rewrite Forall_forall in S2. destruct (S2 p Hp) as (_ & Gp). unfold pfact, fact_of in E.
      injection E as _ E _. unfold wf_hazard. rewrite <- E. exact Gp.
    - unfold ents. rewrite map_app. apply (Permutation_map f_ent) in P. rewrite pfact_ents, map_map in P.
      change (fun x => f_ent (fact_of x)) with (@h_ent F D) in P. apply nodup_app.
      + apply bin_nodup, Gb.
      + eapply Permutation_NoDup; [symmetry; exact P|exact S3].
      + intros e He He'. eapply Permutation_in in He'; [|exact P]. apply in_map_iff in He' as (p & <- & _).
        eapply pi_not_static. exact He.
  Qed.
  Lemma restore_LI : forall l s l', LI l -> SI s -> layout_restore l s = Ok l' -> LI l'.
  Proof.
    intros l s l' (G & Fi & R) Ss H. unfold layout_restore in H. apply rbind_ok in H as (u & _ & H).
    apply rbind_ok in H as (c & Ec & H). injection H as <-.
    split; [exact G|]. split; [exact (proj1 (proj2 Ss))|]. cbn [ly_bin ly_cde ly_items].
    assert (St : step (ly_cde l, [ls_cde s]) (ORestore 0) = Ok (c, [ls_cde s]))
      by (cbn [step nth_error expect rbind]; rewrite Ec; reflexivity).
    pose proof Ss as (_ & _ & P & Sd).
    pose proof (rel_add _ _ _ _ _ R (SI_snap_ok s _ Ss G) Sd P) as R1.
    eapply (step_related BSok) in St; [|exact R1|cbn; lia]. cbn [astep nth] in St. eapply rel_drop. exact St.
  Qed.
  Lemma from_snapshot_LI : forall s l, SI s -> layout_from_snapshot s = Ok l -> LI l.
  Proof. intros s l Ss H. eapply restore_LI; [|exact Ss|exact H]. apply new_LI. exact (proj1 Ss). Qed.
  Lemma flush_LI : forall l l', LI l -> layout_flush l = Ok l' -> LI l'.
  Proof.
    intros l l' (G & Fi & R) H. unfold layout_flush in H. apply rbind_ok in H as (c & Ec & H). injection H as <-.
    split; [exact G|]. split; [exact Fi|]. cbn [ly_bin ly_cde ly_items].
    assert (St : step (ly_cde l, []) OFlush = Ok (c, [])) by (cbn [step]; rewrite Ec; reflexivity).
    eapply (step_related BSok) in St; [|exact R|exact I]. exact St.
  Qed.
  Lemma clone_LI : forall l id, LI l -> LI (clone_with_id l id).
  Proof. intros l id H. exact H. Qed.

  (** *** histories of one layout *)
  Lemma lstep_LI : forall l sn o l' sn', LI l -> Forall SI sn -> lop_ok cat l o ->
    lstep (l, sn) o = Ok (l', sn') -> LI l' /\ Forall SI sn'.
  Proof.
    intros l sn o l' sn' I Is Ok H. destruct o as [it d ptr|k b|b| |k|]; cbn [lstep lop_ok] in *.
    - apply rbind_ok in H as ([k l1] & E & H). injection H as <- <-. destruct Ok as (A & B & C).
      split; [|exact Is]. eapply place_LI; eassumption.
    - apply rbind_ok in H as ([p l1] & E & H). injection H as <- <-. split; [|exact Is]. eapply remove_LI; eassumption.
    - apply rbind_ok in H as (l1 & E & H). injection H as <- <-. split; [|exact Is]. eapply change_bin_LI; eassumption.
    - apply rbind_ok in H as ([s l1] & E & H). injection H as <- <-. destruct (snap_SI _ _ _ I E) as (A & B).
      split; [exact A|]. apply Forall_app. auto.
    - apply rbind_ok in H as (s & Es & H). apply expect_ok in Es. apply rbind_ok in H as (l1 & E & H). injection H as <- <-.
      split; [|exact Is]. eapply restore_LI; [exact I| |exact E]. rewrite Forall_forall in Is. eapply Is, nth_error_In, Es.
    - apply rbind_ok in H as (l1 & E & H). injection H as <- <-. split; [|exact Is]. eapply flush_LI; eassumption.
  Qed.
  Lemma lrun_LI : forall ops l sn l' sn', LI l -> Forall SI sn -> lops_ok cat (l, sn) ops ->
    rfold lstep ops (l, sn) = Ok (l', sn') -> LI l' /\ Forall SI sn'.
  Proof.
    induction ops as [|o ops IH]; intros l sn l' sn' I Is V H; cbn [rfold] in H.
    - injection H as <- <-. auto.
    - apply rbind_ok in H as ([l1 sn1] & E & H). cbn [lops_ok fst] in V. destruct V as (V1 & V2).
      rewrite E in V2. destruct (lstep_LI _ _ _ _ _ I Is V1 E) as (I1 & Is1). eapply IH; eassumption.
  Qed.

  (** what the invariant says *)
  Lemma LI_mirror : forall l, LI l -> mirrored cat l.
  Proof.
    intros l (G & (S1 & S2 & S3) & R).
    assert (Ep : map (fun x => (PlacedItem (fst x) (snd x), shape_at cat (fst x) (snd x), true)) (placed l) =
                 map pfact (sm_values (ly_items l))).
    { unfold placed. rewrite map_map. apply map_ext_in. intros p Hp. rewrite Forall_forall in S2.
      destruct (S2 p Hp) as (E & _). unfold pfact, fact_of. cbn. rewrite E. reflexivity. }
    split; [|split; [|split]].
    - unfold placed. clear -S3. induction (sm_values (ly_items l)) as [|p ps IH]; [constructor|].
      cbn [map] in *. inversion S3 as [|? ? Np S3']; subst. constructor; [|auto].
      intros X. apply Np. apply in_map_iff in X as (p' & E & Hp'). injection E as E1 E2.
      apply in_map_iff. exists p'. split; [|exact Hp']. unfold pi_entity. congruence.
    - exact (rl_static _ _ _ _ _ _ _ R).
    - rewrite Ep. exact (rl_facts _ _ _ _ _ _ _ R).
    - set (hs := map pi_hazard (sm_values (ly_items l))).
      assert (V : ops_ok shpE (bin_statics (ly_bin l)) ([], []) (map (fun h => OReg h) hs)).
      { apply fresh_ok.
        - unfold hs. rewrite Forall_map. eapply Forall_impl; [|exact S2]. intros p Hp. exact (proj2 Hp).
        - unfold hs. rewrite Forall_map. eapply Forall_impl; [|exact S2]. intros p Hp. apply pi_denotes, Hp.
        - rewrite map_app. apply nodup_app.
          + apply bin_nodup, G.
          + unfold hs. rewrite map_map. exact S3.
          + intros e He He'. unfold hs in He'. rewrite map_map in He'. apply in_map_iff in He' as (p & <- & _).
            eapply pi_not_static. exact He.
        - intros h _ []. }
      destruct (engine_total BSok (cfg_depth (bn_cfg (ly_bin l))) (bin_box (ly_bin l)) shpE (bin_statics (ly_bin l)) _
                  (bin_statics_ok _ G) V) as (c & sn & E).
      exists c, sn. unfold hs in E. rewrite map_map in E. split; [exact E|]. intros q Gq.
      rewrite <- (map_map pi_hazard (fun h => OReg h)) in E. fold hs in E.
      pose proof (engine_related BSok _ _ shpE _ 0 _ _ _ (bin_statics_ok _ G) V E) as R'.
      rewrite (ask_answer _ _ _ q (rl_inv _ _ _ _ _ _ _ R) Gq), (ask_answer _ _ _ q (rl_inv _ _ _ _ _ _ _ R') Gq).
      eexists. split; [reflexivity|]. f_equal. symmetry. apply answer_perm.
      + pose proof (inv_nodup_all _ _ _ (rl_inv _ _ _ _ _ _ _ R)) as X. unfold registered, all_hazards.
        rewrite map_map. exact X.
      + rewrite (related_registered _ _ _ _ _ _ _ R), (related_registered _ _ _ _ _ _ _ R').
        apply Permutation_app_head. cbn [fst]. fold (dynamic_facts (map (fun h : hazard => OReg h) hs)).
        rewrite fresh_facts, <- Permutation_rev. unfold hs. rewrite map_map. reflexivity.
  Qed.
End LP.
