(** Examples for the statements about debug builds of problems. *)
From Coq Require Import List Bool Arith ZArith QArith Lia Permutation.
From Verif Require Import Base Num GeoModel HazardModel QTModel TransfModel HpgModel CdeModel CdeSpec
  PolyModel SlotMapModel LayoutModel ProblemModel ProblemSpec AssertModel AssertSpec AssertLayoutModel AssertLayoutSpec
  AssertProblemModel AssertProblemSpec Instances ShapeSpec CdeExamples ProblemExamples AssertExamples
  BaseProofs LayoutProofs ProblemProofs ProblemOpsProofs StripProofs NormProofs
  AssertLayoutProofs AssertProblemProofs AssertStripProofs AssertStripRealProofs.
From Verif Require RigidProofs RigidProofs ParityProofs FitProofs RectPolyProofs CentreProofs ConstructProofs RegionProofs LbfSpProofs LbfStripThmProofs LbfExample2Proofs.
From Coq Require Import Reals Lra.
From Verif Require Import GeoModel HazardModel QTModel TransfModel HpgModel CdeModel CdeSpec GeoSpec PlaceSpec HpgSpec LbfSpec ShapeSpec AssertModel AssertSpec.
Import ListNotations.
Local Open Scope nat_scope.

(** *** bin packing: two bins, one with a hole *)
Definition yops : list (bop nat) := xops1 ++ [BFlush; BCreate None; BRestore 0].
Lemma ex_bp_d : checked_inst xinst /\ bops_ok true (bp_new xinst, []) yops /\
  exists s, bp_run true xinst yops = Ok s /\ map (fun l => placed l) (bp_layouts (fst s)) = [[(0, 0); (1, 80)]].
Proof.
  split; [|split].
  - split; [exact xinst_good|]. constructor; [exact b0_checked|constructor; [exact b1_checked|constructor]].
  - apply bops_okb_ok. vm_compute. reflexivity.
  - exists (or_else (bp_run true xinst yops) bp_none). split; [apply or_else_ok; vm_compute; reflexivity|]. vm_compute. reflexivity.
Qed.
Lemma ex_blind : exists p h s p1 r p2 p3, bp_run true xinst xops1 = Ok (p, h) /\ bp_create p None = Ok (s, p1) /\
  bp_place p1 (PO (Real 0) 1 80) 205 = Ok (r, p2) /\ bp_deregister_layout p1 (Real 0) = Ok p3.
Proof.
  set (a := or_else (bp_run true xinst xops1) bp_none).
  set (c := or_else (bp_create (fst a) None) (Sol 0 [] 0%Q [] [] [], fst a)).
  set (d := or_else (bp_place (snd c) (PO (Real 0) 1 80) 205) ((Real 0, (0, 0)), snd c)).
  exists (fst a), (snd a), (fst c), (snd c), (fst d), (snd d), (or_else (bp_deregister_layout (snd c) (Real 0)) (snd c)).
  split; [|split; [|split]].
  - rewrite <- surjective_pairing. apply or_else_ok. vm_compute. reflexivity.
  - rewrite <- surjective_pairing. apply or_else_ok. vm_compute. reflexivity.
  - rewrite <- surjective_pairing. apply or_else_ok. vm_compute. reflexivity.
  - apply or_else_ok. vm_compute. reflexivity.
Qed.

(** *** strips *)
Local Open Scope R_scope.
Section E.
  Variable M : R.
  Hypothesis HM : 1 < M.
  #[local] Instance NEx : Num R := RNumT Reqb M.
  #[local] Existing Instance RTrig.
  Context {ED : EqD (dtransf R)} {BS : BSearch}.
  Hypothesis BSok : bsearch_ok BS.
  Local Notation D := (dtransf R).
  Definition ex_strip : spinst R := SPI LbfExample2Proofs.ex_items (items_area LbfExample2Proofs.ex_items) 10.
  Definition strip_ops : list (sop R D) :=
    [SPlace (PO (Real 0) 0 (DT 0 4 4)) 5; SCreate; SFit 6; SBack 12 7; SCentered 9 8; SFront 10 9; SModify (Rc 0 0 11 10) 20; SRestore 0; SRemove (Real 0) (1, 1)%nat false; SFlush].
  Lemma gp : forall (d : D) s, good_shape s -> good_poly (tr_poly (compose d) s).
  Proof. intros d s H. exact (RegionProofs.good_wf _ (RigidProofs.good_tr_poly (compose d) s (RigidProofs.rigid_compose d) H)). Qed.
  Lemma no_place : forall ovf tol ops s, Forall (fun o : sop R D => match o with SPlace _ _ => False | _ => True end) ops -> sops_ok ovf tol s ops.
  Proof.
    intros ovf tol. induction ops as [|o ops IH]; intros s H; [exact I|]. inversion H as [|? ? H1 H2]; subst. cbn [sops_ok]. split.
    - destruct o; try exact I. destruct H1.
    - destruct (sstep ovf tol s o); [apply IH, H2|exact I].
  Qed.
  Lemma ex_sp_d : forall tol, good_sinst ex_strip /\ 0 < si_height ex_strip /\ Forall sized_strip strip_ops /\
    exists p0, sp_new ex_strip 10 (Cfg 3 0) 0 = Ok p0 /\ sops_ok true tol (p0, []) strip_ops /\
      exists p h, rfold (sstep true tol) (firstn 2 strip_ops) (p0, []) = Ok (p, h) /\ placed (sp_layout p) = [(0%nat, DT 0 4 4)].
  Proof.
    intros tol. assert (Hi : spinst_new LbfExample2Proofs.ex_items 10 = Ok ex_strip) by reflexivity. pose proof (sinst_ids _ _ _ Hi) as Ids.
    split; [exists LbfExample2Proofs.ex_items, 10; exact Hi|]. split; [cbn; lra|]. split.
    { unfold strip_ops. repeat (constructor; [first [exact I|refine (proj2 (ParityProofs.Rltb_spec 0 _) _); lra|refine (proj2 (rect_iff M _) _); split; cbn; lra]|]). constructor. }
    assert (Gp : good_poly (tr_poly (compose (DT 0 4 4)) (it_shape (LbfStripThmProofs.sq_item 2)))).
    { pose proof (LbfExample2Proofs.ex_sound M HM) as Snd. inversion Snd as [|? ? Si _]; subst.
      apply gp, Si. }
    destruct (CentreProofs.rect_works (Rc 0 0 10 10)) as (s & Es); [split; cbn; lra|].
    assert (Es' : poly_of_rect (N := NEx) (Rc 0 0 10 10) = Ok s) by (unfold poly_of_rect in *; rewrite (RectPolyProofs.poly_new_M M); exact Es).
    assert (B : exists b : bin R D, bin_from_strip (Rc 0 0 10 10) (Cfg 3 0) 0 = Ok b).
    { unfold bin_from_strip. rewrite Es'. cbn [rbind]. unfold bin_new. cbn [map no_repeat rassert rbind forallb cfg_cells].
      match goal with |- context [cde_new ?bx ?hs ?d _] => destruct (CdeOpsProofs.cde_new_ok BSok d bx hs 0) as (qt & Ec & _) end.
      - constructor; [|constructor]. eapply (MirrorProofs.poly_new_good (feq_sym_M M)), Es'.
      - constructor; [intros []|constructor].
      - rewrite Ec. cbn [rbind]. eauto. }
    destruct B as (b & Eb).
    destruct (new_R M BSok ex_strip 10 (Cfg 3 0) 0 ltac:(lra) ltac:(cbn; lra) eq_refl) as (_ & Hn).
    set (p0 := ProblemModel.SP ex_strip (layout_new 0 b) (map (fun p => Z.of_nat (snd p)) LbfExample2Proofs.ex_items) 0 0).
    assert (En : sp_new ex_strip 10 (Cfg 3 0) 0 = Ok p0).
    { unfold sp_new. assert (E : bin_from_strip (Rc f0 f0 10 (si_height ex_strip)) (Cfg 3 0) 0 = Ok b) by exact Eb. rewrite E. reflexivity. }
    destruct (Hn p0 En) as (W0 & I0). exists p0. split; [exact En|].
    assert (V : sop_ok p0 (SPlace (PO (Real 0) 0 (DT 0 4 4)) 5)).
    { cbn [sop_ok]. split; [exact Gp|]. intros []. }
    split.
    { unfold strip_ops. split; [exact V|]. destruct (sstep true tol (p0, []) _); [|exact I]. apply no_place. repeat (constructor; [exact I|]). constructor. }
    destruct (place_d BSok (item_shape (si_items ex_strip)) (layout_new 0 b) (LbfStripThmProofs.sq_item 2) (DT 0 4 4) 5 (sw_layout _ _ _ _ W0) eq_refl Gp) as (_ & k & l' & El & Dl'); [intros []|].
    assert (Ep : exists m, sp_place p0 (PO (Real 0) 0 (DT 0 4 4)) 5 = Ok ((Real 0, k), ProblemModel.SP ex_strip l' m 0 0)).
    { unfold sp_place. cbn [po_layout is_strip rassert rbind po_item po_dt p0 sp_inst sp_layout]. unfold item_of. cbn [ex_strip si_items nth_error LbfExample2Proofs.ex_items expect rbind fst].
      assert (El' : layout_place (layout_new 0 b) (LbfStripThmProofs.sq_item 2) (DT 0 4 4) 5 = Ok (k, l')) by exact El. rewrite El'. cbn [rbind].
      eexists. reflexivity. }
    destruct Ep as (m & Ep).
    destruct (sp_place_SW BSok (Qs M) ex_strip p0 [] (PO (Real 0) 0 (DT 0 4 4)) 5 Ids W0 Gp ltac:(intros [])) as (_ & W1). specialize (W1 _ _ Ep).
    destruct (snapshot_d BSok _ _ (sw_layout _ _ _ _ W1)) as (_ & sn & l2 & Es2 & _). cbn [sp_layout] in Es2.
    pose proof (sp_place_inv _ _ _ _ _ _ _ Ids I0 Ep) as I1.
    assert (Ec : exists so p2, sp_create (ProblemModel.SP ex_strip l' m 0 0) = Ok (so, p2) /\ sp_layout p2 = l2).
    { unfold sp_create. cbn [sp_layout sp_inst sp_missing sp_lctr sp_sctr].
      assert (K : forall xs, (forall x, In x xs -> (fst x < length (si_items ex_strip))%nat) -> exists r, rmapM (fun x : nat * Z => q <- item_qty (si_items ex_strip) (fst x) ;; Ok (Z.of_nat q - snd x)%Z) xs = Ok r).
      { induction xs as [|[i z] xs IH]; intros Hx; cbn [rmapM]; [eauto|]. unfold item_qty at 1. pose proof (Hx _ (or_introl eq_refl)) as Lx. cbn [fst] in Lx.
        cbn [fst]. destruct (nth_error (si_items ex_strip) i) as [[it q]|] eqn:Ei; [|apply nth_error_None in Ei; lia]. cbn [expect rbind snd].
        destruct IH as (r & Er); [intros x Hx'; apply Hx; right; exact Hx'|]. rewrite Er. cbn [rbind]. eauto. }
      unfold placed_qtys. destruct (K (combine (seq 0 (length m)) m)) as (pl & Epl).
      { intros [i z] Hx. apply in_combine_l in Hx. apply in_seq in Hx. cbn [fst]. pose proof (proj1 (s_miss _ _ _ I1)) as Ms. cbn [sp_missing] in Ms. rewrite Ms in Hx. lia. }
      rewrite Epl. cbn [rbind]. assert (Es3 : layout_snapshot l' = Ok (sn, l2)) by exact Es2. rewrite Es3. cbn [rbind]. eexists _, _. split; reflexivity. }
    destruct Ec as (so & p2 & Ec & L2). exists p2, [so]. split.
    - unfold strip_ops. cbn [firstn rfold sstep rbind]. rewrite Ep. cbn [rbind sstep]. rewrite Ec. reflexivity.
    - rewrite L2. apply snapshot_content in Es2 as (C2 & _). unfold content in C2. injection C2 as _ _ C2. unfold placed. rewrite C2.
      apply place_content in El as (_ & _ & Ins). injection Ins as _ <-. reflexivity.
  Qed.
End E.
