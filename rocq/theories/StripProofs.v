(** Bookkeeping of the strip packing problem. *)
From Coq Require Import List Bool Arith ZArith Lia Permutation.
From Verif Require Import Base Num GeoModel HazardModel QTModel TransfModel HpgModel CdeModel CdeSpec
  PolyModel SlotMapModel LayoutModel ProblemModel ProblemSpec BaseProofs SlotMapProofs ProblemProofs
  ProblemOpsProofs.
Import ListNotations.

Section ST.
  Context {F : Type} {N : Num F} {D : Type} {ED : EqD D} {BS : BSearch} {DC : DComp F D}.
  Local Notation item := (item F).
  Local Notation bin := (bin F D).
  Local Notation layout := (layout F D).
  Local Notation lsnap := (lsnap F D).
  Local Notation solution := (solution F D).
  Local Notation sp := (sp F D).
  Local Notation pitem := (pitem F D).
  Local Notation cont := (nat * bin * smap pitem)%type.

  Definition sids_ok (inst : spinst F) : Prop :=
    forall i it q, nth_error (si_items inst) i = Some (it, q) -> it_id it = i.
  Lemma sinst_ids : forall items hgt (inst : spinst F), spinst_new items hgt = Ok inst -> sids_ok inst.
  Proof.
    intros items hgt inst H. unfold spinst_new in H. apply rbind_ok in H as (u & E & H).
    destruct (ids_correct _) eqn:G; [|discriminate]. injection H as <-. intros i it q Ex. cbn [si_items] in Ex.
    eapply ids_correct_spec; [exact G|]. rewrite nth_error_map, Ex. reflexivity.
  Qed.

  Record ssol_ok (items : list (item * nat)) (s : solution) (sn : lsnap) : Prop := {
    ss_one : so_layouts s = [sn];
    ss_placed : PQ items (so_placed s) (c_list (snap_content sn));
    ss_usage : ls_usage sn = c_usage (snap_content sn);
    ss_target : so_target s = map snd items
  }.
  Definition srecorded (p : sp) (h : list solution) : list cont :=
    content (sp_layout p) :: flat_map (fun s => map snap_content (so_layouts s)) h.
  Record SInv (inst : spinst F) (p : sp) (h : list solution) : Prop := {
    s_inst : sp_inst p = inst;
    s_miss : MS (si_items inst) (sp_missing p) (lst (sp_layout p));
    s_rec : CInv (sp_lctr p) (srecorded p h);
    s_sids : NoDup (map (@so_id F D) h);
    s_sle : Forall (fun s => so_id s <= sp_sctr p) h;
    s_sols : Forall (fun s => exists sn, ssol_ok (si_items inst) s sn) h
  }.

  Lemma s_sm : forall inst (p : sp) h, SInv inst p h -> sm_ok (ly_items (sp_layout p)).
  Proof. intros inst p h I. apply (ci_sm _ _ (s_rec _ _ _ I) (content (sp_layout p))). left. reflexivity. Qed.

  Lemma sp_new_inv : forall inst w c ptr (p : sp), sp_new inst w c ptr = Ok p -> SInv inst p [].
  Proof.
    intros inst w c ptr p H. unfold sp_new in H. apply rbind_ok in H as (b & _ & H). injection H as <-.
    split; cbn [sp_inst sp_layout sp_missing sp_lctr sp_sctr]; try constructor.
    - apply map_length.
    - split; [constructor|]. intros i it q E. rewrite (map_nth_error _ _ _ E). cbn. f_equal. lia.
    - intros c' [<-|[]]. cbn. lia.
    - intros c' [<-|[]]. exact new_ok.
    - intros c1 c2 [<-|[]] [<-|[]] _. reflexivity.
  Qed.

  (** the same layout with other items *)
  Lemma supd_inv : forall inst (p : sp) h l' m, SInv inst p h -> ly_id l' = ly_id (sp_layout p) ->
    ly_bin l' = ly_bin (sp_layout p) -> sm_ok (ly_items l') -> MS (si_items inst) m (lst l') ->
    SInv inst (SP (sp_inst p) l' m (sp_lctr p) (sp_sctr p)) h.
  Proof.
    intros inst p h l' m [I1 I2 I3 I4 I5 I6] Ei Eb Sm M.
    split; cbn [sp_inst sp_layout sp_missing sp_lctr sp_sctr]; auto.
    eapply CInv_derived; [exact I3|]. unfold srecorded. cbn [sp_layout]. intros c [<-|Hc].
    - exists (content (sp_layout p)). split; [left; reflexivity|]. auto.
    - exists c. assert (K : In c (srecorded p h)) by (right; exact Hc).
      split; [exact K|]. split; [reflexivity|]. split; [reflexivity|]. apply (ci_sm _ _ I3 _ K).
  Qed.

  Lemma sp_place_inv : forall inst (p : sp) h o ptr r p', sids_ok inst -> SInv inst p h ->
    sp_place p o ptr = Ok (r, p') -> SInv inst p' h.
  Proof.
    intros inst p h o ptr r p' Ids I H. unfold sp_place in H. apply rbind_ok in H as (u & _ & H).
    apply rbind_ok in H as (it & Eit & H). apply item_of_inv in Eit as (q & Eit).
    apply rbind_ok in H as ([k l] & Ep & H). apply rbind_ok in H as (m & Em & H). injection H as <- <-.
    apply place_content in Ep as (Ei & Eb & Ins). pose proof (s_inst _ _ _ I) as Einst. rewrite Einst in Eit.
    assert (Eid : pi_item (@pi_new F N D DC it (po_dt o) ptr) = po_item o) by (cbn; apply Ids with (1 := Eit)).
    destruct (insert_lst _ _ _ _ (s_sm _ _ _ I) Ins) as (Sm & P & Ne). rewrite Eid in P.
    apply supd_inv; auto. eapply MS_perm; [|eapply MS_register; [exact (s_miss _ _ _ I)|exact Em]].
    symmetry. exact P.
  Qed.
  Lemma sp_remove_inv : forall inst (p : sp) h li k b r p', SInv inst p h ->
    sp_remove p li k b = Ok (r, p') -> SInv inst p' h.
  Proof.
    intros inst p h li k b r p' I H. unfold sp_remove in H. apply rbind_ok in H as (u & _ & H).
    apply rbind_ok in H as ([pi l] & Er & H). apply rbind_ok in H as (m & Em & H). injection H as <- <-.
    apply remove_content in Er as (Ei & Eb & Rem). pose proof (s_sm _ _ _ I) as Sm0.
    pose proof (remove_spec _ _ _ _ Sm0 Rem) as (Sm & _). pose proof (remove_perm _ _ _ _ Sm0 Rem) as P.
    apply (Permutation_map (@pi_item F D)) in P. cbn [map] in P.
    apply supd_inv; auto. eapply MS_deregister; [|exact Em]. eapply MS_perm; [|exact (s_miss _ _ _ I)]. exact P.
  Qed.

  (** an empty layout in a new strip *)
  Lemma all_missing : forall (inst : spinst F) (p : sp) m, length (sp_missing p) = length (si_items inst) ->
    rmapM (fun i => q <- item_qty (si_items inst) i ;; Ok (Z.of_nat q)) (seq 0 (length (sp_missing p))) = Ok m ->
    MS (si_items inst) m [].
  Proof.
    intros inst p m El H. apply rmapM_F2, F2_nth in H as (E1 & E2). rewrite seq_length in E1.
    split; [congruence|]. split; [constructor|]. intros i it q G. assert (Hi : i < length (si_items inst)) by (apply nth_error_Some; congruence).
    destruct (E2 i i) as (y & Ey & Hy); [rewrite nth_seq by lia; reflexivity|].
    apply rbind_ok in Hy as (q' & Hq & Hy). apply item_qty_inv in Hq as (it' & Hq). rewrite G in Hq.
    injection Hq as <- <-. injection Hy as <-. rewrite Ey. f_equal. cbn. lia.
  Qed.
  Lemma fresh_strip_inv : forall inst (p : sp) h m b, SInv inst p h -> MS (si_items inst) m [] ->
    SInv inst (SP (sp_inst p) (layout_new (S (sp_lctr p)) b) m (S (sp_lctr p)) (sp_sctr p)) h.
  Proof.
    intros inst p h m b [I1 I2 I3 I4 I5 I6] M.
    split; cbn [sp_inst sp_layout sp_missing sp_lctr sp_sctr]; auto.
    eapply CInv_incl; [apply (CInv_fresh _ _ b sm_new I3 new_ok)|].
    intros c [<-|Hc]; [left; reflexivity|right; right; exact Hc].
  Qed.
  Lemma replace_inv : forall inst h xs (p p' : sp), sids_ok inst -> SInv inst p h ->
    rfold replace_item xs p = Ok p' -> SInv inst p' h.
  Proof.
    induction xs as [|[[id d] ptr] xs IH]; intros p p' Ids I H; cbn [rfold] in H.
    - injection H as <-. exact I.
    - apply rbind_ok in H as (p1 & E & H). eapply IH; [exact Ids| |exact H].
      unfold replace_item in E. apply rbind_ok in E as (it & _ & E). apply rbind_ok in E as (b & _ & E).
      destruct b; [injection E as <-; exact I|]. apply rbind_ok in E as ([r p2] & E & E'). injection E' as <-.
      eapply sp_place_inv; eassumption.
  Qed.
  Lemma modify_inv : forall inst h (p p' : sp) r ptr, sids_ok inst -> SInv inst p h ->
    modify_strip p r ptr = Ok p' -> SInv inst p' h.
  Proof.
    intros inst h p p' r ptr Ids I H. unfold modify_strip in H. apply rbind_ok in H as (m & Em & H).
    apply rbind_ok in H as (b & Eb & H). eapply replace_inv; [exact Ids| |exact H].
    apply fresh_strip_inv; [exact I|]. pose proof (s_inst _ _ _ I) as E. rewrite E in Em.
    eapply all_missing; [exact (proj1 (s_miss _ _ _ I))|exact Em].
  Qed.
  Lemma sp_create_spec : forall (p : sp) s p', sp_create p = Ok (s, p') ->
    exists sn l, layout_snapshot (sp_layout p) = Ok (sn, l) /\
      placed_qtys (si_items (sp_inst p)) (sp_missing p) = Ok (so_placed s) /\
      s = Sol (S (sp_sctr p)) [sn] (usage_of [l]) (so_placed s) (map snd (si_items (sp_inst p))) [0] /\
      p' = SP (sp_inst p) l (sp_missing p) (sp_lctr p) (S (sp_sctr p)).
  Proof.
    intros p s p' H. unfold sp_create in H. apply rbind_ok in H as (pl & Epl & H).
    apply rbind_ok in H as ([sn l] & Es & H). injection H as <- <-. exists sn, l. auto.
  Qed.
  Lemma sp_create_inv : forall inst (p : sp) h s p', SInv inst p h -> sp_create p = Ok (s, p') ->
    SInv inst p' (h ++ [s]).
  Proof.
    intros inst p h s p' I H. apply sp_create_spec in H as (sn & l & Es & Epl & Esol & ->).
    apply snapshot_content in Es as (C1 & C2 & U). destruct I as [I1 I2 I3 I4 I5 I6]. rewrite I1 in *.
    assert (Sid : so_id s = S (sp_sctr p)) by (rewrite Esol; reflexivity).
    assert (Sl : so_layouts s = [sn]) by (rewrite Esol; reflexivity).
    split; cbn [sp_inst sp_layout sp_missing sp_lctr sp_sctr].
    - reflexivity.
    - unfold lst in *. unfold content in C1. injection C1 as _ _ E. rewrite E. exact I2.
    - eapply CInv_incl; [exact I3|]. unfold srecorded. cbn [sp_layout]. rewrite C1.
      intros c [<-|Hc]; [left; reflexivity|]. rewrite flat_map_app in Hc. apply in_app_or in Hc as [Hc|Hc]; [right; exact Hc|].
      cbn [flat_map] in Hc. rewrite Sl in Hc. cbn in Hc. destruct Hc as [<-|[]]. left. symmetry. exact C2.
    - rewrite map_app. apply nodup_app; [exact I4|cbn; constructor; [intros []|constructor]|].
      intros x Hx [<-|[]]. apply in_map_iff in Hx as (s' & Es' & Hs). rewrite Forall_forall in I5.
      specialize (I5 s' Hs). lia.
    - apply Forall_app. split; [eapply Forall_impl; [|exact I5]; cbn; intros; lia|constructor; [lia|constructor]].
    - apply Forall_app. split; [exact I6|]. constructor; [|constructor]. exists sn. split.
      + exact Sl.
      + eapply PQ_perm; [|eapply placed_PQ; [exact I2|exact Epl]]. rewrite C2. reflexivity.
      + rewrite C2, U. reflexivity.
      + rewrite Esol. reflexivity.
  Qed.
  Lemma sp_restore_content : forall inst ovf (p : sp) h s p', SInv inst p h -> In s h -> sp_restore ovf p s = Ok p' ->
    exists sn m, so_layouts s = [sn] /\ content (sp_layout p') = snap_content sn /\
      restored_missing ovf (si_items inst) (so_placed s) (sp_missing p) = Ok m /\
      p' = SP (sp_inst p) (sp_layout p') m (sp_lctr p) (sp_sctr p).
  Proof.
    intros inst ovf p h s p' I Hs H. pose proof (s_sols _ _ _ I) as So. rewrite Forall_forall in So.
    destruct (So s Hs) as (sn & K). pose proof (ss_one _ _ _ K) as El. unfold sp_restore in H.
    rewrite El in H. cbn [nth_error expect rbind] in H.
    apply rbind_ok in H as (l & E & H). apply rbind_ok in H as (m & Em & H). injection H as <-.
    pose proof (s_inst _ _ _ I) as Einst. rewrite Einst in Em.
    exists sn, m. split; [exact El|]. split; [|split; [exact Em|reflexivity]]. cbn [sp_layout].
    destruct (Nat.eqb_spec (ly_id (sp_layout p)) (ls_id sn)) as [Ei|_].
    - apply restore_content in E as (_ & ->). unfold snap_content. do 2 f_equal.
      apply (ci_coh _ _ (s_rec _ _ _ I) (content (sp_layout p)) (snap_content sn)); [left; reflexivity| |exact Ei].
      right. apply in_flat_map. exists s. split; [exact Hs|]. rewrite El. left. reflexivity.
    - apply from_snapshot_content in E. exact E.
  Qed.
  Lemma sp_restore_inv : forall inst ovf (p : sp) h s p', SInv inst p h -> In s h -> sp_restore ovf p s = Ok p' ->
    SInv inst p' h.
  Proof.
    intros inst ovf p h s p' I Hs H. destruct (sp_restore_content _ _ _ _ _ _ I Hs H) as (sn & m & El & C & Em & ->).
    cbn [sp_layout] in C. pose proof (s_sols _ _ _ I) as So. rewrite Forall_forall in So.
    destruct (So s Hs) as (sn' & K). pose proof (ss_one _ _ _ K) as El'. rewrite El in El'. injection El' as <-.
    destruct I as [I1 I2 I3 I4 I5 I6]. split; cbn [sp_inst sp_layout sp_missing sp_lctr sp_sctr]; auto.
    - eapply restored_MS; [exact (proj1 I2)| |exact Em]. pose proof (ss_placed _ _ _ K) as P. rewrite <- C in P. exact P.
    - eapply CInv_incl; [exact I3|]. unfold srecorded. cbn [sp_layout]. rewrite C.
      intros c [<-|Hc]; [|right; exact Hc]. right. apply in_flat_map. exists s. split; [exact Hs|]. rewrite El. left. reflexivity.
  Qed.
  Lemma sp_flush_inv : forall inst (p : sp) h p', SInv inst p h -> sp_flush p = Ok p' -> SInv inst p' h.
  Proof.
    intros inst p h p' I H. unfold sp_flush in H. apply rbind_ok in H as (l & E & H). injection H as <-.
    apply flush_content in E. unfold content in E. injection E as E1 E2 E3.
    apply supd_inv; auto; [rewrite E3; exact (s_sm _ _ _ I)|]. unfold lst. rewrite E3. exact (s_miss _ _ _ I).
  Qed.
  Lemma sstep_inv : forall inst ovf tol (p : sp) h o p' h', sids_ok inst -> SInv inst p h ->
    sstep ovf tol (p, h) o = Ok (p', h') -> SInv inst p' h'.
  Proof.
    intros inst ovf tol p h o p' h' Ids I H.
    destruct o as [o ptr|li k b|r ptr|w ptr|w ptr|w ptr|ptr| |k|]; cbn [sstep] in H.
    - apply rbind_ok in H as ([r p1] & E & H). injection H as <- <-. eapply sp_place_inv; eassumption.
    - apply rbind_ok in H as ([r p1] & E & H). injection H as <- <-. eapply sp_remove_inv; eassumption.
    - apply rbind_ok in H as (p1 & E & H). injection H as <- <-. eapply modify_inv; eassumption.
    - apply rbind_ok in H as (p1 & E & H). injection H as <- <-. eapply modify_inv; eassumption.
    - apply rbind_ok in H as (p1 & E & H). injection H as <- <-. eapply modify_inv; eassumption.
    - apply rbind_ok in H as (p1 & E & H). injection H as <- <-. unfold modify_strip_centered in E.
      destruct (match occupied_range (sp_layout p) with Some r => r | None => (f0, f0) end) as [x y].
      eapply modify_inv; eassumption.
    - apply rbind_ok in H as (p1 & E & H). injection H as <- <-. unfold fit_strip in E.
      apply rbind_ok in E as (p2 & E & E'). apply rbind_ok in E' as (u & _ & E'). injection E' as <-.
      unfold modify_strip_centered in E.
      destruct (match occupied_range (sp_layout p) with Some r => r | None => (f0, f0) end) as [x y].
      eapply modify_inv; eassumption.
    - apply rbind_ok in H as ([s p1] & E & H). injection H as <- <-. eapply sp_create_inv; eassumption.
    - apply rbind_ok in H as (s & Es & H). apply expect_ok in Es. apply rbind_ok in H as (p1 & E & H). injection H as <- <-.
      eapply sp_restore_inv; [exact I|eapply nth_error_In; exact Es|exact E].
    - apply rbind_ok in H as (p1 & E & H). injection H as <- <-. eapply sp_flush_inv; eassumption.
  Qed.
  Lemma srun_inv_from : forall inst ovf tol ops (p : sp) h p' h', sids_ok inst -> SInv inst p h ->
    rfold (sstep ovf tol) ops (p, h) = Ok (p', h') -> SInv inst p' h'.
  Proof.
    induction ops as [|o ops IH]; intros p h p' h' Ids I H; cbn [rfold] in H.
    - injection H as <- <-. exact I.
    - apply rbind_ok in H as ([p1 h1] & E & H). eapply IH; [exact Ids| |exact H]. eapply sstep_inv; eassumption.
  Qed.
  Lemma srun_inv : forall ovf tol inst w c ptr ops (p : sp) h, sids_ok inst ->
    sp_run ovf tol inst w c ptr ops = Ok (p, h) -> SInv inst p h.
  Proof.
    intros ovf tol inst w c ptr ops p h Ids H. unfold sp_run in H. apply rbind_ok in H as (p0 & E & H).
    eapply srun_inv_from; [exact Ids| |exact H]. eapply sp_new_inv; exact E.
  Qed.
  Lemma sstep_hist : forall ovf tol (p : sp) h o p' h', sstep ovf tol (p, h) o = Ok (p', h') -> exists t, h' = h ++ t.
  Proof.
    intros ovf tol p h o p' h' H. destruct o; cbn [sstep] in H; apply rbind_ok in H as (x & E & H);
      try (destruct x as [x1 x2]); try (injection H as <- <-); try (exists []; rewrite app_nil_r; reflexivity).
    - eauto.
    - apply rbind_ok in H as (p1 & E' & H). injection H as <- <-. exists []. rewrite app_nil_r. reflexivity.
  Qed.
  Lemma srun_hist : forall ovf tol ops (p : sp) h p' h', rfold (sstep ovf tol) ops (p, h) = Ok (p', h') -> exists t, h' = h ++ t.
  Proof.
    induction ops as [|o ops IH]; intros p h p' h' H; cbn [rfold] in H.
    - injection H as <- <-. exists []. rewrite app_nil_r. reflexivity.
    - apply rbind_ok in H as ([p1 h1] & E & H). apply sstep_hist in E as (t & ->). apply IH in H as (t' & ->).
      exists (t ++ t'). rewrite app_assoc. reflexivity.
  Qed.
End ST.
