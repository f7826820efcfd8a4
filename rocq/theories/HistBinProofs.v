(** What holds of every bin handed out holds of the bin of every layout of a history. *)
From Coq Require Import List Bool Arith ZArith Lia Permutation.
From Verif Require Import Base Num GeoModel HazardModel QTModel TransfModel HpgModel CdeModel CdeSpec
  PolyModel SlotMapModel LayoutModel ProblemModel ProblemSpec BaseProofs HazVecProofs QTProofs CdeProofs
  SlotMapProofs ProblemProofs ProblemOpsProofs ProblemThmProofs StripProofs LayoutProofs MirrorProofs.
Import ListNotations.

Section HB.
  Context {F : Type} {N : Num F} {D : Type} {ED : EqD D} {BS : BSearch} {DC : DComp F D}.
  Local Notation bin := (bin F D).
  Local Notation layout := (layout F D).
  Local Notation lsnap := (lsnap F D).
  Local Notation solution := (solution F D).
  Local Notation bp := (bp F D).
  Local Notation sp := (sp F D).
  Variable P : bin -> Prop.
  Definition PL (l : layout) : Prop := P (ly_bin l).
  Definition PS (s : lsnap) : Prop := P (ls_bin s).
  Lemma content_bin : forall l l' : layout, content l' = content l -> PL l -> PL l'.
  Proof. intros [i b m c] [i' b' m' c'] E H. unfold content in E. cbn in E. injection E as -> -> ->. exact H. Qed.
  Lemma place_bin : forall (l l' : layout) it d ptr k, layout_place l it d ptr = Ok (k, l') -> PL l -> PL l'.
  Proof. intros l l' it d ptr k E H. apply place_content in E as (_ & Eb & _). unfold PL. rewrite Eb. exact H. Qed.
  Lemma remove_bin : forall (l l' : layout) k b p, layout_remove l k b = Ok (p, l') -> PL l -> PL l'.
  Proof. intros l l' k b p E H. apply remove_content in E as (_ & Eb & _). unfold PL. rewrite Eb. exact H. Qed.
  Lemma restore_bin : forall (l l' : layout) s, layout_restore l s = Ok l' -> PL l -> PL l'.
  Proof. intros l l' s E H. apply restore_content in E as (_ & E). unfold content in E. injection E as _ Eb _. unfold PL. rewrite Eb. exact H. Qed.
  Lemma from_snapshot_bin : forall s (l : layout), layout_from_snapshot s = Ok l -> PS s -> PL l.
  Proof. intros s l E H. eapply restore_bin; [exact E|exact H]. Qed.
  Lemma snapshot_bin : forall (l : layout) s l', layout_snapshot l = Ok (s, l') -> PL l -> PS s /\ PL l'.
  Proof.
    intros l s l' E H. apply snapshot_content in E as (E1 & E2 & _). split; [|exact (content_bin _ _ E1 H)].
    unfold snap_content, content in E2. injection E2 as _ Eb _. unfold PS. rewrite Eb. exact H.
  Qed.

  (** *** bin packing *)
  Record PB (p : bp) (h : list solution) : Prop := {
    pb_layouts : Forall PL (bp_layouts p);
    pb_removed : Forall PL (bp_removed p);
    pb_templates : Forall PL (bp_templates p);
    pb_sols : Forall (fun s => Forall PS (so_layouts s)) h
  }.
  Lemma new_PB : forall inst, Forall (fun x => P (fst x)) (bi_bins inst) -> PB (bp_new inst) [].
  Proof.
    intros inst G. split; cbn [bp_new bp_layouts bp_removed bp_templates]; try constructor.
    rewrite Forall_map, Forall_forall. intros [i [b q]] H. apply in_combine_r in H. rewrite Forall_forall in G. exact (G _ H).
  Qed.
  Lemma place_PB : forall p h o ptr r p', PB p h -> bp_place p o ptr = Ok (r, p') -> PB p' h.
  Proof.
    intros p h [li i d] ptr r p' [I2 I3 I4 I5] H. unfold bp_place in H. cbn [po_layout po_item po_dt] in *.
    apply rbind_ok in H as ([j p1] & E1 & H). apply rbind_ok in H as (l & El & H). apply expect_ok in El.
    apply rbind_ok in H as (it & Eit & H). apply rbind_ok in H as ([k l'] & Epl & H). apply rbind_ok in H as (m & Em & H). injection H as <- <-.
    assert (K : PB p1 h).
    { destruct li as [j0|t]; [injection E1 as <- <-; split; assumption|].
      apply rbind_ok in E1 as (tl & Et & E1). apply expect_ok in Et. unfold bp_register_layout in E1. apply rbind_ok in E1 as (bins & _ & E1). apply rbind_ok in E1 as (mm & _ & E1).
      injection E1 as <- <-. cbn [bp_inst bp_layouts bp_removed bp_templates] in *. split; cbn [bp_layouts bp_removed bp_templates]; try assumption.
      apply Forall_app. split; [exact I2|]. constructor; [|constructor]. rewrite Forall_forall in I4. exact (I4 tl (nth_error_In _ _ Et)). }
    destruct K as [K2 K3 K4 K5]. split; cbn [bp_layouts bp_removed bp_templates]; try assumption.
    apply Forall_vset; [|exact K2]. eapply place_bin; [exact Epl|]. rewrite Forall_forall in K2. exact (K2 l (nth_error_In _ _ El)).
  Qed.
  Lemma dereg_PB : forall (p : bp) h li p', PB p h -> bp_deregister_layout p li = Ok p' -> PB p' h.
  Proof.
    intros p h [i|t] p' [I2 I3 I4 I5] H; [|discriminate]. unfold bp_deregister_layout in H.
    apply rbind_ok in H as ([l ls] & E & H). apply expect_ok in E. apply vremove_split in E as (a & b & Es & -> & _).
    apply rbind_ok in H as (bins & Eb & H). apply rbind_ok in H as (m & Em & H). injection H as <-.
    rewrite Es in I2. apply Forall_app in I2 as (A & B). inversion B; subst.
    split; cbn [bp_layouts bp_removed bp_templates]; auto; apply Forall_app; auto.
  Qed.
  Lemma remove_PB : forall (p : bp) h li k b r p', PB p h -> bp_remove p li k b = Ok (r, p') -> PB p' h.
  Proof.
    intros p h [i|t] k b0 r p' I H; [|discriminate]. unfold bp_remove in H. pose proof I as [I2 I3 I4 I5].
    apply rbind_ok in H as (l & El & H). apply expect_ok in El.
    apply rbind_ok in H as ([pi l'] & Er & H). apply rbind_ok in H as (p2 & E2 & H).
    apply rbind_ok in H as (m & Em & H). injection H as <- <-.
    assert (L' : PL l') by (eapply remove_bin; [exact Er|]; rewrite Forall_forall in I2; exact (I2 l (nth_error_In _ _ El))).
    match type of E2 with (if _ then bp_deregister_layout ?q _ else _) = _ => set (p1 := q) in * end.
    assert (M1 : PB p1 h) by (split; cbn [p1 bp_layouts bp_removed bp_templates]; auto; apply Forall_vset; assumption).
    assert (M2 : PB p2 h) by (destruct (layout_is_empty l'); [eapply dereg_PB; eassumption|injection E2 as <-; exact M1]).
    destruct M2 as [J2 J3 J4 J5]. split; cbn [bp_layouts bp_removed bp_templates]; auto.
  Qed.
  Lemma find_snap_PS : forall (sn : list lsnap) id s, Forall PS sn -> find_snap id sn = Some s -> PS s.
  Proof. intros sn id s H E. apply find_snap_some in E as (E & _). rewrite Forall_forall in H. auto. Qed.
  Lemma create_PB : forall (p : bp) h old sol p', PB p h -> match old with Some s => In s h | None => True end ->
    bp_create p old = Ok (sol, p') -> PB p' (h ++ [sol]).
  Proof.
    intros p h old sol p' [I2 I3 I4 I5] Ho H. unfold bp_create in H.
    apply rbind_ok in H as (pl & Epl & H). apply rbind_ok in H as (u & Eold & H). apply rbind_ok in H as (sl & Esl & H). injection H as <- <-.
    assert (K : Forall (fun x => PS (fst x) /\ PL (snd x)) sl).
    { rewrite Forall_forall. intros x Hx. apply rmapM_F2 in Esl. destruct (F2_in_r _ _ _ _ Esl Hx) as (l & Hl & El).
      assert (Ll : PL l) by (rewrite Forall_forall in I2; auto). destruct x as [s l']. unfold bp_snapshot_layout in El. cbn [fst snd].
      assert (Snap : layout_snapshot l = Ok (s, l') -> PS s /\ PL l') by (intros E; exact (snapshot_bin _ _ _ E Ll)).
      destruct old as [so|]; cbn [option_map] in El; [|auto].
      destruct (existsb (Nat.eqb (ly_id l)) (bp_unmod p)); [|auto].
      apply rbind_ok in El as (s0 & Es & El). apply expect_ok in Es. injection El as <- <-.
      split; [|exact Ll]. eapply find_snap_PS; [|exact Es]. rewrite Forall_forall in I5. auto. }
    split; cbn [bp_layouts bp_removed bp_templates]; auto.
    - rewrite Forall_map. eapply Forall_impl; [|exact K]. intros x Hx. apply Hx.
    - apply Forall_app. split; [exact I5|]. constructor; [|constructor]. cbn [so_layouts].
      rewrite Forall_map. eapply Forall_impl; [|exact K]. intros x Hx. apply Hx.
  Qed.
  Lemma absent_PB : forall present sn ls removed ls' removed', Forall PS sn -> Forall PL ls -> Forall PL removed ->
    rfold (restore_absent present) sn (ls, removed) = Ok (ls', removed') -> Forall PL ls'.
  Proof.
    induction sn as [|s sn IH]; intros ls removed ls' removed' Hs Hl Hr H; cbn [rfold] in H.
    - injection H as <- <-. exact Hl.
    - inversion Hs as [|? ? Ss Hs']; subst. apply rbind_ok in H as ([ls1 removed1] & E1 & H).
      unfold restore_absent in E1. destruct (existsb (Nat.eqb (ls_id s)) present).
      + injection E1 as <- <-. eapply IH; [| | |exact H]; assumption.
      + destruct (position (fun l : layout => Nat.eqb (ly_id l) (ls_id s)) removed) as [i|] eqn:E.
        * apply rbind_ok in E1 as ([l rem] & Es & E1). apply expect_ok in Es.
          apply rbind_ok in E1 as (l' & Er & E1). injection E1 as <- <-.
          apply position_some in E as (a & x & b & -> & <- & Ex & _).
          pose proof Es as Es'. rewrite swap_remove_spec in Es'. injection Es' as <- _.
          apply swap_remove_perm in Es. apply Forall_app in Hr as (Ha & Hb). inversion Hb; subst.
          assert (Hrem : Forall PL rem) by (eapply Permutation_Forall; [symmetry; exact Es|]; apply Forall_app; auto).
          eapply IH; [exact Hs'| | |exact H]; [|assumption]. apply Forall_app. split; [exact Hl|].
          constructor; [|constructor]. eapply restore_bin; [exact Er|]; assumption.
        * apply rbind_ok in E1 as (l' & Er & E1). injection E1 as <- <-.
          eapply IH; [exact Hs'| |exact Hr|exact H]. apply Forall_app. split; [exact Hl|].
          constructor; [|constructor]. eapply from_snapshot_bin; [exact Er|assumption].
  Qed.
  Lemma restore_PB : forall ovf (p : bp) h s p', PB p h -> In s h -> bp_restore ovf p s = Ok p' -> PB p' h.
  Proof.
    intros ovf p h s p' [I2 I3 I4 I5] Hs H. unfold bp_restore in H.
    assert (Ss : Forall PS (so_layouts s)) by (rewrite Forall_forall in I5; auto).
    apply rbind_ok in H as (ls & Els & H). apply rbind_ok in H as (m & Em & H). apply rbind_ok in H as (u & Eb & H). injection H as <-.
    split; cbn [bp_layouts bp_removed bp_templates]; auto.
    destruct (opt_nat_eqb (Some (so_id s)) (bp_ref p)).
    - apply rbind_ok in Els as (ls1 & E1 & Els). apply rbind_ok in Els as ([ls3 rem] & E3 & Els). injection Els as <-.
      rewrite filters_not_in in E3. eapply absent_PB; [exact Ss| |exact I3|exact E3].
      rewrite Forall_forall. intros l Hl. apply filter_In in Hl as (Hl & _).
      apply rmapM_F2 in E1. destruct (F2_in_r _ _ _ _ E1 Hl) as (l0 & Hl0 & El0). unfold restore_present in El0.
      assert (L0 : PL l0) by (rewrite Forall_forall in I2; auto).
      destruct (find_snap (ly_id l0) (so_layouts s)) as [sn|] eqn:Ef; [|injection El0 as <-; exact L0].
      destruct (existsb (Nat.eqb (ly_id l0)) (bp_unmod p)); [injection El0 as <-; exact L0|].
      eapply restore_bin; [exact El0|exact L0].
    - rewrite Forall_forall. intros l Hl. apply rmapM_F2 in Els. destruct (F2_in_r _ _ _ _ Els Hl) as (sn & Hsn & El).
      eapply from_snapshot_bin; [exact El|]. rewrite Forall_forall in Ss. auto.
  Qed.
  Lemma flush_PB : forall (p : bp) h p', PB p h -> bp_flush p = Ok p' -> PB p' h.
  Proof.
    intros p h p' [I2 I3 I4 I5] H. unfold bp_flush in H. apply rbind_ok in H as (ls & E & H). injection H as <-.
    split; cbn [bp_layouts bp_removed bp_templates]; auto.
    rewrite Forall_forall. intros l Hl. apply rmapM_F2 in E. destruct (F2_in_r _ _ _ _ E Hl) as (l0 & Hl0 & El).
    eapply content_bin; [exact (flush_content _ _ El)|]. rewrite Forall_forall in I2. auto.
  Qed.
  Lemma bstep_PB : forall ovf (p : bp) h o p' h', PB p h -> bstep ovf (p, h) o = Ok (p', h') -> PB p' h'.
  Proof.
    intros ovf p h o p' h' I H. destruct o as [o ptr|li k b|li|old|k|]; cbn [bstep] in H.
    - apply rbind_ok in H as ([r p1] & E & H). injection H as <- <-. eapply place_PB; eassumption.
    - apply rbind_ok in H as ([r p1] & E & H). injection H as <- <-. eapply remove_PB; eassumption.
    - apply rbind_ok in H as (p1 & E & H). injection H as <- <-. eapply dereg_PB; eassumption.
    - apply rbind_ok in H as (old' & Eo & H). apply rbind_ok in H as ([s p1] & E & H). injection H as <- <-.
      eapply create_PB; [exact I| |exact E]. destruct old as [k|]; [|injection Eo as <-; exact Logic.I].
      apply rbind_ok in Eo as (s' & Es & Eo). injection Eo as <-. apply expect_ok in Es. exact (nth_error_In _ _ Es).
    - apply rbind_ok in H as (s & Es & H). apply expect_ok in Es. apply rbind_ok in H as (p1 & E & H). injection H as <- <-.
      eapply restore_PB; [exact I|exact (nth_error_In _ _ Es)|exact E].
    - apply rbind_ok in H as (p1 & E & H). injection H as <- <-. eapply flush_PB; eassumption.
  Qed.
  Lemma brun_PB : forall inst ovf ops (p : bp) h, Forall (fun x => P (fst x)) (bi_bins inst) -> bp_run ovf inst ops = Ok (p, h) -> PB p h.
  Proof.
    intros inst ovf ops p h G H. unfold bp_run in H. pose proof (new_PB inst G) as I. revert I H. generalize (bp_new inst) ([] : list solution).
    induction ops as [|o ops IH]; intros p0 h0 I H; cbn [rfold] in H; [injection H as <- <-; exact I|].
    apply rbind_ok in H as ([p1 h1] & E & H). eapply IH; [|exact H]. eapply bstep_PB; eassumption.
  Qed.

  (** *** strip packing: the rectangle an operation turns the strip into *)
  Definition new_strip (tol : F) (p : sp) (o : sop F D) : option (rect F) :=
    match o with
    | SModify r _ => Some r
    | SBack w _ => let b := strip_bbox p in Some (Rc (x_min b) (y_min b) (fadd (x_min b) w) (y_max b))
    | SFront w _ => let b := strip_bbox p in Some (Rc (fsub (x_max b) w) (y_min b) (x_max b) (y_max b))
    | SCentered w _ =>
        let '(a, b) := match occupied_range (sp_layout p) with Some r => r | None => (f0, f0) end in
        let added := fsub w (occupied_width (sp_layout p)) in
        Some (Rc (fsub a (fdiv added f2)) (y_min (strip_bbox p)) (fadd b (fdiv added f2)) (y_max (strip_bbox p)))
    | SFit _ =>
        let '(a, b) := match occupied_range (sp_layout p) with Some r => r | None => (f0, f0) end in
        let added := fsub (fmul (occupied_width (sp_layout p)) (fadd f1 tol)) (occupied_width (sp_layout p)) in
        Some (Rc (fsub a (fdiv added f2)) (y_min (strip_bbox p)) (fadd b (fdiv added f2)) (y_max (strip_bbox p)))
    | _ => None
    end.
  Record PSB (p : sp) (h : list solution) : Prop := {
    ps_layout : PL (sp_layout p);
    ps_sols : Forall (fun s => Forall PS (so_layouts s)) h
  }.
  Lemma replace_PL : forall xs (p p' : sp), rfold replace_item xs p = Ok p' -> PL (sp_layout p) -> PL (sp_layout p').
  Proof.
    induction xs as [|[[id d] ptr] xs IH]; intros p p' H Hp; cbn [rfold] in H; [injection H as <-; exact Hp|].
    apply rbind_ok in H as (p1 & E & H). apply (IH _ _ H). unfold replace_item in E. apply rbind_ok in E as (it & _ & E). apply rbind_ok in E as (b & _ & E).
    destruct b; [injection E as <-; exact Hp|]. apply rbind_ok in E as ([r p2] & E & E'). injection E' as <-.
    unfold sp_place in E. apply rbind_ok in E as (u & _ & E). apply rbind_ok in E as (it' & _ & E). apply rbind_ok in E as ([k l] & El & E).
    apply rbind_ok in E as (m & _ & E). injection E as _ <-. exact (place_bin _ _ _ _ _ _ El Hp).
  Qed.
  Lemma modify_PL : forall (p p' : sp) r ptr, modify_strip p r ptr = Ok p' -> (forall c b, bin_from_strip r c ptr = Ok b -> P b) -> PL (sp_layout p').
  Proof.
    intros p p' r ptr H K. unfold modify_strip in H. apply rbind_ok in H as (m & _ & H). apply rbind_ok in H as (b & Eb & H).
    eapply replace_PL; [exact H|]. cbn [sp_layout]. exact (K _ _ Eb).
  Qed.
  Lemma sstep_PS : forall ovf tol (p : sp) h o p' h', PSB p h -> (forall r c ptr b, new_strip tol p o = Some r -> bin_from_strip r c ptr = Ok b -> P b) ->
    sstep ovf tol (p, h) o = Ok (p', h') -> PSB p' h'.
  Proof.
    intros ovf tol p h o p' h' [I1 I2] K H.
    destruct o as [o ptr|li k b|r ptr|w ptr|w ptr|w ptr|ptr| |k|]; cbn [sstep new_strip] in *.
    - apply rbind_ok in H as ([r p1] & E & H). injection H as <- <-. split; [|exact I2].
      unfold sp_place in E. apply rbind_ok in E as (u & _ & E). apply rbind_ok in E as (it' & _ & E). apply rbind_ok in E as ([k l] & El & E).
      apply rbind_ok in E as (m & _ & E). injection E as _ <-. exact (place_bin _ _ _ _ _ _ El I1).
    - apply rbind_ok in H as ([r p1] & E & H). injection H as <- <-. split; [|exact I2].
      unfold sp_remove in E. apply rbind_ok in E as (u & _ & E). apply rbind_ok in E as ([pi l] & El & E). apply rbind_ok in E as (m & _ & E). injection E as _ <-.
      exact (remove_bin _ _ _ _ _ El I1).
    - apply rbind_ok in H as (p1 & E & H). injection H as <- <-. split; [|exact I2]. eapply modify_PL; [exact E|]. intros c b Eb. exact (K _ _ _ _ eq_refl Eb).
    - apply rbind_ok in H as (p1 & E & H). injection H as <- <-. split; [|exact I2]. eapply modify_PL; [exact E|]. intros c b Eb. exact (K _ _ _ _ eq_refl Eb).
    - apply rbind_ok in H as (p1 & E & H). injection H as <- <-. split; [|exact I2]. eapply modify_PL; [exact E|]. intros c b Eb. exact (K _ _ _ _ eq_refl Eb).
    - apply rbind_ok in H as (p1 & E & H). injection H as <- <-. split; [|exact I2]. unfold modify_strip_centered in E.
      destruct (match occupied_range (sp_layout p) with Some r => r | None => (f0, f0) end) as [x y].
      eapply modify_PL; [exact E|]. intros c b Eb. exact (K _ _ _ _ eq_refl Eb).
    - apply rbind_ok in H as (p1 & E & H). injection H as <- <-. split; [|exact I2]. unfold fit_strip in E.
      apply rbind_ok in E as (p2 & E & E'). apply rbind_ok in E' as (u & _ & E'). injection E' as <-. unfold modify_strip_centered in E.
      destruct (match occupied_range (sp_layout p) with Some r => r | None => (f0, f0) end) as [x y].
      eapply modify_PL; [exact E|]. intros c b Eb. exact (K _ _ _ _ eq_refl Eb).
    - apply rbind_ok in H as ([s p1] & E & H). injection H as <- <-. apply sp_create_spec in E as (sn & l & Es & _ & Esol & ->).
      destruct (snapshot_bin _ _ _ Es I1) as (A & B). split; cbn [sp_layout]; [exact B|]. apply Forall_app. split; [exact I2|]. constructor; [|constructor].
      rewrite Esol. cbn [so_layouts]. auto.
    - apply rbind_ok in H as (s & Es & H). apply expect_ok, nth_error_In in Es. apply rbind_ok in H as (p1 & E & H). injection H as <- <-. unfold sp_restore in E.
      apply rbind_ok in E as (ls & Els & E). apply expect_ok in Els.
      assert (Sl : PS ls) by (rewrite Forall_forall in I2; specialize (I2 s Es); rewrite Forall_forall in I2; apply I2; eapply nth_error_In, Els).
      apply rbind_ok in E as (l & El & E). apply rbind_ok in E as (m & Em & E). injection E as <-. split; cbn [sp_layout]; [|exact I2].
      destruct (Nat.eqb (ly_id (sp_layout p)) (ls_id ls)); [eapply restore_bin; eassumption|eapply from_snapshot_bin; eassumption].
    - apply rbind_ok in H as (p1 & E & H). injection H as <- <-. unfold sp_flush in E. apply rbind_ok in E as (l & El & E). injection E as <-. split; cbn [sp_layout]; [|exact I2].
      exact (content_bin _ _ (flush_content _ _ El) I1).
  Qed.
End HB.
