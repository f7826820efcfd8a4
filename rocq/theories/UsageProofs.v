(** Usage figures in exact arithmetic. *)
From Coq Require Import List Bool Arith ZArith Lia Permutation Reals Lra.
From Verif Require Import Base Num GeoModel HazardModel QTModel TransfModel HpgModel CdeModel
  PolyModel SlotMapModel LayoutModel ProblemModel ProblemSpec BaseProofs CdeSpec SlotMapProofs ProblemProofs
  ProblemOpsProofs StripProofs ProblemThmProofs.
Import ListNotations.
Local Open Scope R_scope.

#[local] Existing Instance RNum.

Section UP.
  Context {D : Type} {ED : EqD D} {BS : BSearch} {DC : DComp R D}.
  Local Notation layout := (layout R D).
  Local Notation lsnap := (lsnap R D).
  Local Notation solution := (solution R D).
  Local Notation bp := (bp R D).
  Local Notation sp := (sp R D).

  Definition Rsum (l : list R) : R := fold_right Rplus 0 l.
  Lemma fold_add_R : forall l a, fold_left Rplus l a = a + Rsum l.
  Proof. induction l as [|x l IH]; intros a; cbn; [lra|]. rewrite IH. unfold Rsum. lra. Qed.
  Lemma fsum_R : forall l : list R, fsum l = Rsum l.
  Proof. intros l. unfold fsum. cbn [fadd f0 RNum RNumT]. rewrite fold_add_R. lra. Qed.
  (** area of the items in a snapshot *)
  Definition snap_area (s : lsnap) : R := Rsum (map (fun p => p_area (a_obj (pi_shape p))) (sm_values (ls_items s))).
  Definition lay_area (l : layout) : R := Rsum (map (fun p => p_area (a_obj (pi_shape p))) (sm_values (ly_items l))).
  Lemma usage_area : forall l : layout, bn_area (ly_bin l) <> 0 -> bn_area (ly_bin l) * layout_usage l = lay_area l.
  Proof. intros l H. unfold layout_usage, lay_area. rewrite fsum_R. cbn [fdiv RNum RNumT]. field. exact H. Qed.
  Lemma usage_of_R : forall ls : list layout, Forall (fun l => bn_area (ly_bin l) <> 0) ls ->
    usage_of ls = Rsum (map lay_area ls) / Rsum (map (fun l => bn_area (ly_bin l)) ls).
  Proof.
    intros ls H. unfold usage_of.
    assert (forall a b, fold_left (fun acc l => (fadd (fst acc) (bn_area (ly_bin l)), fadd (snd acc) (fmul (bn_area (ly_bin l)) (layout_usage l)))) ls (a, b)
      = (a + Rsum (map (fun l => bn_area (ly_bin l)) ls), b + Rsum (map lay_area ls))) as K.
    { induction H as [|l ls Hl H IH]; intros a b; cbn [fold_left map Rsum fold_right]; [f_equal; lra|].
      rewrite IH. cbn [fst snd fadd fmul RNum RNumT]. rewrite usage_area by exact Hl. f_equal; unfold Rsum; lra. }
    rewrite K. cbn [fdiv f0 RNum RNumT]. f_equal; [lra|]. f_equal. lra.
  Qed.
  Lemma content_area : forall (sn : list lsnap) (ls : list layout), map snap_content sn = map content ls ->
    map snap_area sn = map lay_area ls /\ map (fun s => bn_area (ls_bin s)) sn = map (fun l => bn_area (ly_bin l)) ls.
  Proof.
    induction sn as [|s sn IH]; intros [|l ls] E; try discriminate; [auto|]. cbn [map] in *.
    assert (snap_content s = content l /\ map snap_content sn = map content ls) as (E1 & E2) by (split; congruence).
    destruct (IH _ E2) as (-> & ->). unfold snap_content, ProblemSpec.content in E1. injection E1 as _ Eb Ei.
    unfold snap_area, lay_area. rewrite Eb, Ei. auto.
  Qed.
  Lemma bp_usage : forall items bins inst ovf ops (p : bp) h old s p',
    bpinst_new items bins = Ok inst -> bp_run ovf inst ops = Ok (p, h) ->
    match old with Some s => In s h | None => True end -> bp_create p old = Ok (s, p') ->
    Forall (fun l => bn_area (ls_bin l) <> 0) (so_layouts s) ->
    so_usage s = Rsum (map snap_area (so_layouts s)) / Rsum (map (fun l => bn_area (ls_bin l)) (so_layouts s)).
  Proof.
    intros items bins inst ovf ops p h old s p' Hi Hr Ho Hc Hne.
    pose proof (run_inv _ _ _ _ _ (inst_ids _ _ _ Hi) Hr) as I.
    destruct (create_content _ _ _ _ _ _ I Ho Hc) as (sl & E1 & E2 & E3 & E4 & _ & _ & Es & _).
    rewrite <- E4 in E3. symmetry in E3. apply content_area in E3 as (A & B).
    rewrite <- E1 in Hne |- *.
    rewrite Es. cbn [so_usage]. rewrite usage_of_R, A, B; [reflexivity|].
    rewrite <- Forall_map with (f := fun l : layout => bn_area (ly_bin l)) (P := fun x => x <> 0).
    rewrite <- B. rewrite Forall_map. exact Hne.
  Qed.
  Lemma sp_usage : forall (p : sp) s p', sp_create p = Ok (s, p') ->
    Forall (fun l => bn_area (ls_bin l) <> 0) (so_layouts s) ->
    so_usage s = Rsum (map snap_area (so_layouts s)) / Rsum (map (fun l => bn_area (ls_bin l)) (so_layouts s)).
  Proof.
    intros p s p' Hc Hne. destruct (sp_create_spec _ _ _ Hc) as (sn & l & Hl & _ & Es & _).
    apply snapshot_content in Hl as (E1 & E2 & _).
    destruct (content_area [sn] [l]) as (A & B); [cbn [map]; congruence|].
    rewrite Es in Hne |- *. cbn [so_usage so_layouts] in *. rewrite usage_of_R, A, B; [reflexivity|].
    cbn [map] in B. injection B as B. constructor; [|constructor]. rewrite <- B. inversion Hne; assumption.
  Qed.
  (** completeness: share of the demanded area that is placed *)
  Lemma completeness_R : forall items (s : solution), solPQ items s ->
    completeness s items (items_area items) =
      Ok (Rsum (map (fun p => p_area (it_shape (fst (snd p))) * INR (count (fst p) (sol_items s))) (combine (seq 0 (length items)) items)) /
          Rsum (map (fun p => p_area (it_shape (fst p)) * INR (snd p)) items)).
  Proof.
    intros items s (Hl & _ & K). unfold completeness, items_area. rewrite fsum_R.
    assert (rmapM (fun p => it <- item_of items (fst p) ;; Ok (fmul (p_area (it_shape it)) (fofN (Z.to_nat (snd p)))))
       (combine (seq 0 (length (so_placed s))) (so_placed s)) =
       Ok (map (fun p => p_area (it_shape (fst (snd p))) * INR (count (fst p) (sol_items s))) (combine (seq 0 (length items)) items))) as ->.
    2: { cbn [rbind]. rewrite fsum_R. reflexivity. }
    rewrite Hl.
    assert (forall n l pl, length l = length pl -> (forall i x, nth_error l i = Some x -> nth_error items (n + i)%nat = Some x) ->
      (forall i x, nth_error pl i = Some x -> x = Z.of_nat (count (n + i) (sol_items s))) ->
      rmapM (fun p => it <- item_of items (fst p) ;; Ok (fmul (p_area (it_shape it)) (fofN (Z.to_nat (snd p))))) (combine (seq n (length l)) pl)
      = Ok (map (fun p => p_area (it_shape (fst (snd p))) * INR (count (fst p) (sol_items s))) (combine (seq n (length l)) l))) as G.
    { intros n l. revert n. induction l as [|x l IH]; intros n [|z pl] E H1 H2; try discriminate; [reflexivity|].
      cbn [length seq combine rmapM map fst snd]. pose proof (H1 0%nat x eq_refl) as Hx. rewrite Nat.add_0_r in Hx.
      unfold item_of at 1. rewrite Hx. cbn [expect rbind].
      assert (z = Z.of_nat (count n (sol_items s))) as -> by (rewrite (H2 0%nat z eq_refl), Nat.add_0_r; reflexivity).
      rewrite Nat2Z.id. rewrite IH.
      - cbn [rbind fmul fofN RNum RNumT]. reflexivity.
      - cbn in E. lia.
      - intros i y Hy. replace (S n + i)%nat with (n + S i)%nat by lia. apply H1. exact Hy.
      - intros i y Hy. replace (S n + i)%nat with (n + S i)%nat by lia. apply H2. exact Hy. }
    apply G; [lia|intros i x Hx; exact Hx|]. intros i x Hx. cbn [Nat.add].
    assert (i < length items)%nat as Hi by (rewrite <- Hl; apply nth_error_Some; congruence).
    rewrite (K i Hi) in Hx. congruence.
  Qed.
End UP.
