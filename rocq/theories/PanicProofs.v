(** Operations on bin-packing problems panic exactly when they cannot be carried out. *)
From Coq Require Import List Bool Arith ZArith Lia Permutation.
From Verif Require Import Base Num GeoModel HazardModel QTModel TransfModel HpgModel CdeModel CdeSpec
  PolyModel SlotMapModel LayoutModel ProblemModel ProblemSpec PanicSpec BaseProofs SlotMapProofs ProblemProofs
  ProblemOpsProofs ProblemThmProofs.
Import ListNotations.

Section PP.
  Context {F : Type} {N : Num F} {D : Type} {ED : EqD D} {BS : BSearch} {DC : DComp F D}.
  Local Notation item := (item F).
  Local Notation bin := (bin F D).
  Local Notation layout := (layout F D).
  Local Notation lsnap := (lsnap F D).
  Local Notation solution := (solution F D).
  Local Notation bp := (bp F D).
  Local Notation sp := (sp F D).
  Local Notation popt := (popt D).
  Local Notation pitem := (pitem F D).

  (** *** bookkeeping *)
  Lemma missing_add_ok : forall i d (m : list Z), i < length m -> exists m', missing_add i d m = Ok m' /\ length m' = length m.
  Proof.
    intros i d m H. unfold missing_add. apply nth_error_Some in H. destruct (nth_error m i) as [x|]; [|contradiction]. cbn [expect rbind].
    eexists. split; [reflexivity|]. apply vset_length.
  Qed.
  Lemma missing_adds_ok : forall d is (m : list Z), Forall (fun i => i < length m) is ->
    exists m', rfold (fun m i => missing_add i d m) is m = Ok m' /\ length m' = length m.
  Proof.
    induction is as [|i is IH]; intros m H; cbn [rfold]; [eauto|]. inversion H as [|? ? H1 H2]; subst.
    destruct (missing_add_ok i d m H1) as (m1 & E1 & L1). rewrite E1. cbn [rbind]. rewrite <- L1 in H2. destruct (IH m1 H2) as (m' & E & L). exists m'. split; [exact E|congruence].
  Qed.
  Lemma placed_qtys_ok : forall (items : list (item * nat)) m, length m = length items -> exists r, placed_qtys items m = Ok r.
  Proof.
    intros items m L. unfold placed_qtys. apply ProblemThmProofs.rmapM_ok. intros [i x] Hx. apply combine_seq_in in Hx as (_ & Hx). rewrite Nat.sub_0_r in Hx. cbn [fst snd].
    assert (Hi : i < length items) by (rewrite <- L; apply nth_error_Some; congruence). apply nth_error_Some in Hi. unfold item_qty. destruct (nth_error items i) as [y|]; [|contradiction]. cbn. eauto.
  Qed.
  Lemma restored_ok : forall ovf (items : list (item * nat)) pl m L, length m = length items -> PQ items pl L ->
    (ovf = true -> forall i it q, nth_error items i = Some (it, q) -> count i L <= q) -> exists r, restored_missing ovf items pl m = Ok r.
  Proof.
    intros ovf items pl m L Lm (_ & _ & K) Ov. unfold restored_missing. apply ProblemThmProofs.rmapM_ok. intros i Hi. apply in_seq in Hi.
    assert (Hl : i < length items) by lia. pose proof Hl as Hs. apply nth_error_Some in Hs. unfold restored_qty, item_qty.
    destruct (nth_error items i) as [[it q]|] eqn:Ei; [|contradiction]. cbn [expect rbind fst snd]. rewrite (K i Hl). cbn [expect rbind].
    destruct ovf; [|cbn; eexists; reflexivity]. specialize (Ov eq_refl i it q Ei). destruct (Z.ltb_spec (Z.of_nat q) (Z.of_nat (count i L))); [lia|]. cbn. eexists. reflexivity.
  Qed.
  Lemma restored_needs : forall (items : list (item * nat)) pl m L r, length m = length items -> PQ items pl L ->
    restored_missing true items pl m = Ok r -> forall i it q, nth_error items i = Some (it, q) -> count i L <= q.
  Proof.
    intros items pl m L r Lm (_ & _ & K) H i it q Ei. unfold restored_missing in H. apply rmapM_F2 in H.
    assert (Hl : i < length items) by (apply nth_error_Some; congruence).
    assert (Hi : In i (seq 0 (length m))) by (apply in_seq; lia). destruct (F2_in_l _ _ _ _ H Hi) as (z & _ & Ez).
    unfold restored_qty, item_qty in Ez. rewrite Ei in Ez. cbn [expect rbind fst snd] in Ez. rewrite (K i Hl) in Ez. cbn [expect rbind andb] in Ez.
    destruct (Z.ltb_spec (Z.of_nat q) (Z.of_nat (count i L))); [discriminate|lia].
  Qed.
  Lemma nth_lt : forall {A} (l : list A) i, i < length l -> exists x, nth_error l i = Some x.
  Proof. intros A l i H. apply nth_error_Some in H. destruct (nth_error l i) as [x|]; [eauto|contradiction]. Qed.
  Lemma lt_nth : forall {A} (l : list A) i x, nth_error l i = Some x -> i < length l.
  Proof. intros A l i x H. apply nth_error_Some. congruence. Qed.
  Lemma vremove_ok : forall {A} (l : list A) i x, nth_error l i = Some x -> exists r, vremove i l = Some (x, r) /\ incl r l.
  Proof.
    intros A l i x H. apply nth_error_split in H as (a & b & -> & <-). exists (a ++ b). rewrite vremove_app. split; [reflexivity|].
    intros y Hy. apply in_app_or in Hy. apply in_or_app. cbn. tauto.
  Qed.
  Lemma incl_Forall : forall {A} (P : A -> Prop) l l', incl l' l -> Forall P l -> Forall P l'.
  Proof. intros A P l l' I H. rewrite Forall_forall in *. auto. Qed.
  Lemma Forall_vset' : forall {A} (P : A -> Prop) i x l, P x -> Forall P l -> Forall P (vset i x l).
  Proof. intros A P i x l Px H. revert i. induction H as [|y l Hy H IH]; intros [|i]; cbn; auto. Qed.

  (** *** what is known of the layouts *)
  Variable inst : bpinst F D.
  Hypothesis Ids : ids_ok inst.
  Local Notation items := (bi_items inst).
  Variables (GL : layout -> Prop) (GS : lsnap -> Prop).
  Hypothesis Hknown : forall l, GL l -> bn_id (ly_bin l) < length (bi_bins inst).
  Hypothesis Hclone : forall l id, GL l -> GL (clone_with_id l id).
  Hypothesis Hplace : forall l it q d ptr, GL l -> nth_error items (it_id it) = Some (it, q) -> good_poly (shape_at (item_shape items) (it_id it) d) ->
    ~ In (it_id it, d) (placed l) -> exists k l', layout_place l it d ptr = Ok (k, l') /\ GL l'.
  Hypothesis Hremove : forall l k b p m, GL l -> sm_remove (ly_items l) k = Some (p, m) -> exists l', layout_remove l k b = Ok (p, l') /\ GL l'.
  Hypothesis Hflush : forall l, GL l -> exists l', layout_flush l = Ok l' /\ GL l'.
  Hypothesis Hsnap : forall l, GL l -> exists s l', layout_snapshot l = Ok (s, l') /\ GL l' /\ GS s.
  Hypothesis Hrestore : forall l s, GL l -> GS s -> ly_id l = ls_id s -> ly_bin l = ls_bin s -> exists l', layout_restore l s = Ok l' /\ GL l'.
  Hypothesis Hfrom : forall s, GS s -> exists l', layout_from_snapshot s = Ok l' /\ GL l'.

  Record GI (p : bp) (h : list solution) : Prop := {
    gi_b : BInv inst p h;
    gi_l : Forall GL (bp_layouts p);
    gi_r : Forall GL (bp_removed p);
    gi_t : Forall GL (bp_templates p);
    gi_s : Forall (fun s => Forall GS (so_layouts s)) h }.
  Definition kept (p p' : bp) : Prop := Forall GL (bp_layouts p') /\ Forall GL (bp_removed p') /\ bp_templates p' = bp_templates p.

  Lemma stock_of : forall p h t b n, BInv inst p h -> nth_error (bi_bins inst) t = Some (b, n) ->
    exists a, nth_error (bp_bins p) t = Some a /\ a + open_of t (bp_layouts p) = n.
  Proof. intros p h t b n I E. destruct (b_stock _ _ _ I) as (_ & K). apply (K t n). rewrite (map_nth_error snd _ _ E). reflexivity. Qed.

  Lemma place_total : forall p h o ptr last ovf, GI p h -> bop_ok p (BPlace o ptr) -> possible ovf last p h (BPlace o ptr) ->
    exists r p', bp_place p o ptr = Ok (r, p') /\ kept p p'.
  Proof.
    intros p h [li i d] ptr last ovf [I Gl Gr Gt Gs] (Gp & Nd) (Hi & Tg). cbn [po_item po_dt po_layout bop_ok] in *. pose proof (b_inst _ _ _ I) as Ei. rewrite Ei in *.
    destruct (nth_lt _ _ Hi) as ([it q] & Eit). pose proof (proj1 Ids _ _ _ Eit) as Eid.
    assert (Lm : i < length (bp_missing p)) by (rewrite (proj1 (b_miss _ _ _ I)); exact Hi).
    unfold bp_place. cbn [po_layout po_item po_dt]. destruct li as [j|t].
    - cbn [rbind]. destruct (nth_lt _ _ Tg) as (l & El). rewrite El. cbn [expect rbind]. rewrite Ei. unfold item_of. rewrite Eit. cbn [expect rbind fst].
      cbn [target] in Nd. rewrite El in Nd. pose proof (proj1 (Forall_forall _ _) Gl l (nth_error_In _ _ El)) as Gll.
      rewrite <- Eid in Gp, Nd, Eit. destruct (Hplace l it q d ptr Gll Eit Gp Nd) as (k & l' & Epl & Gl'). rewrite Epl. cbn [rbind].
      destruct (missing_add_ok i (-1) _ Lm) as (m & Em & _). unfold register_included. rewrite Em. cbn [rbind]. eexists. eexists. split; [reflexivity|].
      split; [|split; [exact Gr|reflexivity]]. apply Forall_vset'; assumption.
    - destruct Tg as (b & n & Eb & Lt). pose proof (proj2 Ids _ _ _ Eb) as Ebi.
      destruct (nth_error (bp_templates p) t) as [tl|] eqn:Et.
      2:{ exfalso. rewrite (b_tmpl _ _ _ I) in Et. apply nth_error_None in Et. cbn [bp_new bp_templates] in Et. rewrite map_length, combine_length, seq_length, Nat.min_id in Et.
          apply lt_nth in Eb. lia. }
      cbn [expect rbind]. pose proof (proj1 (Forall_forall _ _) Gt tl (nth_error_In _ _ Et)) as Gtl. cbn [target] in Nd. rewrite Et in Nd.
      pose proof Et as Et'. rewrite (b_tmpl _ _ _ I) in Et'. apply nth_template in Et' as (b' & q' & Eb' & ->). rewrite Eb in Eb'. injection Eb' as <- <-.
      unfold bp_register_layout. cbn [bp_inst bp_layouts bp_templates bp_missing bp_bins bp_lctr bp_sctr bp_unmod bp_ref bp_removed clone_with_id layout_new ly_bin ly_items].
      destruct (stock_of p h t b n I Eb) as (a & Ea & Sum). unfold register_bin. rewrite Ebi, Ea. cbn [expect rbind]. destruct a as [|a]; [lia|].
      change (sm_values sm_new) with (@nil pitem). cbn [rbind map rfold]. cbn [bp_inst bp_layouts bp_templates bp_missing bp_bins bp_lctr bp_sctr bp_unmod bp_ref bp_removed].
      rewrite nth_error_app2, Nat.sub_diag by lia. cbn [nth_error expect rbind]. rewrite Ei. unfold item_of. rewrite Eit. cbn [expect rbind fst].
      rewrite <- Eid in Gp, Nd, Eit. destruct (Hplace _ it q d ptr (Hclone _ (S (bp_lctr p)) Gtl) Eit Gp Nd) as (k & l' & Epl & Gl').
      cbn [clone_with_id layout_new ly_bin ly_items ly_cde] in Epl. rewrite Epl. cbn [rbind].
      destruct (missing_add_ok i (-1) _ Lm) as (m & Em & _). unfold register_included. rewrite Em. cbn [rbind]. eexists. eexists. split; [reflexivity|].
      split; [|split; [exact Gr|reflexivity]]. cbn [bp_layouts]. rewrite vset_app. apply Forall_app. auto.
  Qed.

  Lemma dereg_raw : forall (p : bp) i l, nth_error (bp_layouts p) i = Some l -> bn_id (ly_bin l) < length (bp_bins p) ->
    Forall (fun x => x < length (bp_missing p)) (lst l) -> Forall GL (bp_layouts p) -> Forall GL (bp_removed p) ->
    exists p', bp_deregister_layout p (Real i) = Ok p' /\ kept p p' /\ length (bp_missing p') = length (bp_missing p).
  Proof.
    intros p i l El Hb Hm Gl Gr. destruct (vremove_ok _ _ _ El) as (r & Er & Inc). unfold bp_deregister_layout. rewrite Er. cbn [expect rbind].
    destruct (nth_lt _ _ Hb) as (a & Ea). unfold deregister_bin. rewrite Ea. cbn [expect rbind].
    destruct (missing_adds_ok 1 _ _ Hm) as (m & Em & Lm).
    assert (Em' : rfold deregister_included (map (@pi_item F D) (sm_values (ly_items l))) (bp_missing p) = Ok m) by exact Em.
    rewrite Em'. cbn [rbind]. eexists. split; [reflexivity|]. split; [|exact Lm]. split; [exact (incl_Forall _ _ _ Inc Gl)|]. split; [|reflexivity].
    cbn [bp_removed]. apply Forall_app. split; [exact Gr|]. constructor; [|constructor]. exact (proj1 (Forall_forall _ _) Gl l (nth_error_In _ _ El)).
  Qed.
  Lemma bins_len : forall p h, BInv inst p h -> length (bp_bins p) = length (bi_bins inst).
  Proof. intros p h I. rewrite (proj1 (b_stock _ _ _ I)). apply map_length. Qed.
  Lemma lst_lt : forall p h l, BInv inst p h -> In l (bp_layouts p) -> Forall (fun x => x < length (bp_missing p)) (lst l).
  Proof.
    intros p h l I Hl. destruct (b_miss _ _ _ I) as (Lm & Fa & _). rewrite Lm. rewrite Forall_forall in *. intros x Hx. apply Fa. unfold items_in. apply in_flat_map. eauto.
  Qed.
  Lemma dereg_total : forall p h i, GI p h -> i < length (bp_layouts p) -> exists p', bp_deregister_layout p (Real i) = Ok p' /\ kept p p'.
  Proof.
    intros p h i [I Gl Gr Gt Gs] Hi. destruct (nth_lt _ _ Hi) as (l & El). pose proof (nth_error_In _ _ El) as Hl.
    destruct (dereg_raw p i l El) as (p' & E & K & _); auto.
    - rewrite (bins_len _ _ I). apply Hknown. exact (proj1 (Forall_forall _ _) Gl l Hl).
    - exact (lst_lt _ _ _ I Hl).
    - eauto.
  Qed.
  Lemma remove_total : forall p h i l k x b, GI p h -> nth_error (bp_layouts p) i = Some l -> In (k, x) (sm_iter (ly_items l)) ->
    exists r p', bp_remove p (Real i) k b = Ok (r, p') /\ kept p p'.
  Proof.
    intros p h i l k x b [I Gl Gr Gt Gs] El Hk. pose proof (nth_error_In _ _ El) as Hl. pose proof (proj1 (Forall_forall _ _) Gl l Hl) as Gll.
    apply get_iter in Hk. pose proof Hk as Hg. apply remove_some in Hk as (m & Em).
    destruct (Hremove l k b x m Gll Em) as (l' & El' & Gl'). unfold bp_remove. rewrite El. cbn [expect rbind]. rewrite El'. cbn [rbind].
    assert (Hx : pi_item x < length (bp_missing p)).
    { pose proof (lst_lt _ _ _ I Hl) as Fa. rewrite Forall_forall in Fa. apply Fa. unfold lst. apply in_map. unfold sm_values.
      change x with (snd (k, x)). apply in_map. apply get_iter, Hg. }
    set (p1 := BP (bp_inst p) (vset i l' (bp_layouts p)) (bp_templates p) (bp_missing p) (bp_bins p)
                     (bp_lctr p) (bp_sctr p) (layout_changed (bp_unmod p) (ly_id l)) (bp_ref p) (bp_removed p)).
    assert (Gl1 : Forall GL (bp_layouts p1)) by (apply Forall_vset'; assumption).
    assert (K : exists p2, (if layout_is_empty l' then bp_deregister_layout p1 (Real i) else Ok p1) = Ok p2 /\ kept p p2 /\ length (bp_missing p2) = length (bp_missing p)).
    { destruct (layout_is_empty l').
      - destruct (dereg_raw p1 i l') as (p2 & E2 & K2 & L2); auto.
        + apply nth_error_vset_eq. exact (lt_nth _ _ _ El).
        + cbn [p1 bp_bins]. rewrite (bins_len _ _ I). apply Hknown, Gl'.
        + pose proof (remove_content _ _ _ _ _ El') as (_ & _ & Er).
          pose proof (lst_lt _ _ _ I Hl) as Fa. rewrite Forall_forall in *. intros y Hy. apply Fa.
          unfold lst in *. apply in_map_iff in Hy as (z & <- & Hz). apply in_map.
          pose proof (SlotMapProofs.remove_perm _ _ _ _ (recorded_sm _ _ _ _ I Hl) Er) as P. eapply Permutation_in; [symmetry; exact P|]. right. exact Hz.
        + exists p2. auto.
      - exists p1. split; [reflexivity|]. split; [|reflexivity]. split; [exact Gl1|]. split; [exact Gr|reflexivity]. }
    destruct K as (p2 & E2 & (K1 & K2 & K3) & L2). rewrite E2. cbn [rbind]. rewrite <- L2 in Hx. destruct (missing_add_ok _ 1 _ Hx) as (m2 & Em2 & _).
    unfold deregister_included. rewrite Em2. cbn [rbind]. eexists. eexists. split; [reflexivity|]. split; [exact K1|]. split; [exact K2|exact K3].
  Qed.
  Lemma rmapM_all : forall {A B} (f : A -> res B) (P : A -> B -> Prop) l, (forall x, In x l -> exists y, f x = Ok y /\ P x y) ->
    exists l', rmapM f l = Ok l' /\ Forall2 P l l'.
  Proof.
    intros A B f P. induction l as [|x l IH]; intros H; cbn [rmapM]; [eauto|]. destruct (H x (or_introl eq_refl)) as (y & Ey & Py). rewrite Ey. cbn [rbind].
    destruct IH as (l' & El & Pl); [intros z Hz; apply H; right; exact Hz|]. rewrite El. cbn [rbind]. eauto.
  Qed.
  Lemma F2_Forall : forall {A B} (P : A -> B -> Prop) (Q : B -> Prop) l l', (forall x y, P x y -> Q y) -> Forall2 P l l' -> Forall Q l'.
  Proof. intros A B P Q l l' H K. induction K; constructor; eauto. Qed.
  Lemma flush_total : forall p h, GI p h -> exists p', bp_flush p = Ok p' /\ kept p p'.
  Proof.
    intros p h [I Gl Gr Gt Gs]. unfold bp_flush, flush_all. destruct (rmapM_all layout_flush (fun _ l' => GL l') (bp_layouts p)) as (ls & El & Fl).
    { intros l Hl. apply Hflush. exact (proj1 (Forall_forall _ _) Gl l Hl). }
    rewrite El. cbn [rbind]. eexists. split; [reflexivity|]. split; [|split; [exact Gr|reflexivity]]. eapply F2_Forall; [|exact Fl]. auto.
  Qed.
  Lemma create_total' : forall p h old, GI p h -> match old with Some s => In s h /\ bp_ref p = Some (so_id s) | None => True end ->
    exists s p', bp_create p old = Ok (s, p') /\ kept p p' /\ Forall GS (so_layouts s).
  Proof.
    intros p h old [I Gl Gr Gt Gs] Ho. unfold bp_create. rewrite (b_inst _ _ _ I).
    destruct (placed_qtys_ok (bi_items inst) (bp_missing p) (proj1 (b_miss _ _ _ I))) as (q & Eq). rewrite Eq. cbn [rbind].
    assert (Eo : match old with Some s => r <- expect (bp_ref p) ;; rassert (Nat.eqb (so_id s) r) | None => Ok tt end = Ok tt).
    { destruct old as [s|]; [|reflexivity]. destruct Ho as (_ & ->). cbn. rewrite Nat.eqb_refl. reflexivity. }
    rewrite Eo. cbn [rbind].
    destruct (rmapM_all (bp_snapshot_layout (bp_unmod p) (option_map (@so_layouts F D) old)) (fun _ x => GS (fst x) /\ GL (snd x)) (bp_layouts p)) as (sl & El & Fl).
    { intros l Hl. pose proof (proj1 (Forall_forall _ _) Gl l Hl) as Gll.
      assert (K : exists y, layout_snapshot l = Ok y /\ GS (fst y) /\ GL (snd y)) by (destruct (Hsnap l Gll) as (s & l' & E & G1 & G2); exists (s, l'); auto).
      unfold bp_snapshot_layout. destruct old as [s|]; cbn [option_map]; [|exact K].
      destruct (existsb (Nat.eqb (ly_id l)) (bp_unmod p)) eqn:Eu; [|exact K].
      apply existsb_exists in Eu as (n & Hn & En). apply Nat.eqb_eq in En. subst n. destruct Ho as (Hs & Hf).
      pose proof (b_ref _ _ _ I) as R. rewrite Hf in R. destruct R as (s' & Hs' & Es & R).
      assert (s' = s) as -> by (eapply nodup_inj; [exact (b_sids _ _ _ I)|exact Hs'|exact Hs|exact Es]).
      destruct (R l Hl Hn) as (sn & Ef & _). rewrite Ef. cbn [expect rbind]. exists (sn, l). split; [reflexivity|]. split; [|exact Gll]. cbn [fst].
      rewrite Forall_forall in Gs. specialize (Gs s Hs). rewrite Forall_forall in Gs. apply Gs. exact (proj1 (find_snap_some _ _ _ Ef)). }
    rewrite El. cbn [rbind]. eexists. eexists. split; [reflexivity|]. cbn [so_layouts]. split.
    - split; [|split; [exact Gr|reflexivity]]. cbn [bp_layouts]. clear - Fl. induction Fl as [|? ? ? ? (A & B)]; cbn; constructor; auto.
    - clear - Fl. induction Fl as [|? ? ? ? (A & B)]; cbn; constructor; auto.
  Qed.
  Lemma absent_total : forall present sn ls removed, Forall GS sn -> Forall GL ls -> Forall GL removed ->
    (forall l s, In l removed -> In s sn -> ly_id l = ls_id s -> ly_bin l = ls_bin s) ->
    exists ls' removed', rfold (restore_absent present) sn (ls, removed) = Ok (ls', removed') /\ Forall GL ls'.
  Proof.
    intros present. induction sn as [|s sn IH]; intros ls removed Gs Gl Gr C; cbn [rfold]; [eauto|].
    inversion Gs as [|? ? Gs1 Gs2]; subst. unfold restore_absent at 1. destruct (existsb (Nat.eqb (ls_id s)) present); cbn [rbind].
    - apply IH; auto. intros l z Hl Hz. apply C; [exact Hl|right; exact Hz].
    - destruct (position (fun l : layout => Nat.eqb (ly_id l) (ls_id s)) removed) as [i|] eqn:P.
      + apply position_some in P as (a & x & b & -> & <- & Ex & _). apply Nat.eqb_eq in Ex.
        destruct (swap_remove (length a) (a ++ x :: b)) as [[y rem]|] eqn:Es; [|rewrite swap_remove_spec in Es; discriminate].
        assert (y = x) as -> by (rewrite swap_remove_spec in Es; congruence). cbn [expect rbind]. apply swap_remove_perm in Es.
        assert (Inc : incl rem (a ++ x :: b)).
        { intros z Hz. eapply Permutation_in in Hz; [|exact Es]. apply in_app_or in Hz. apply in_or_app. cbn. tauto. }
        assert (Hx : In x (a ++ x :: b)) by (apply in_or_app; right; left; reflexivity).
        destruct (Hrestore x s) as (l' & El & Gl'); auto.
        * exact (proj1 (Forall_forall _ _) Gr x Hx).
        * apply C; [exact Hx|left; reflexivity|exact Ex].
        * rewrite El. cbn [rbind]. apply IH; auto.
          -- apply Forall_app. auto.
          -- exact (incl_Forall _ _ _ Inc Gr).
          -- intros l z Hl Hz. apply C; [apply Inc, Hl|right; exact Hz].
      + destruct (Hfrom s Gs1) as (l' & El & Gl'). rewrite El. cbn [rbind]. apply IH; auto.
        * apply Forall_app. auto.
        * intros l z Hl Hz. apply C; [exact Hl|right; exact Hz].
  Qed.
  Lemma sol_items_c : forall s : solution, sol_items s = flat_map c_list (map snap_content (so_layouts s)).
  Proof.
    intros s. unfold sol_items. induction (so_layouts s) as [|x l IH]; cbn; [reflexivity|]. rewrite IH. f_equal. unfold snap_placed, c_list, snap_content. cbn. rewrite map_map. reflexivity.
  Qed.
  Lemma restore_total : forall p h s ovf, GI p h -> In s h -> (ovf = true -> in_demand (bi_items inst) s) -> exists p', bp_restore ovf p s = Ok p' /\ kept p p'.
  Proof.
    intros p h s ovf [I Gl Gr Gt Gs] Hs Hd. unfold bp_restore.
    assert (Gss : Forall GS (so_layouts s)) by (rewrite Forall_forall in Gs; exact (Gs s Hs)).
    assert (So : sol_ok (bi_items inst) (map snd (bi_bins inst)) s) by (pose proof (b_sols _ _ _ I) as X; rewrite Forall_forall in X; auto).
    assert (Coh : forall l sn, In l (bp_layouts p ++ bp_removed p) -> In sn (so_layouts s) -> ly_id l = ls_id sn -> ly_bin l = ls_bin sn).
    { intros l sn Hl Hsn E. apply (ci_coh _ _ (b_rec _ _ _ I) (content l) (snap_content sn)); [| |exact E].
      - apply in_or_app. left. apply in_map, Hl.
      - apply in_or_app. right. apply in_flat_map. exists s. split; [exact Hs|apply in_map, Hsn]. }
    match goal with |- exists p', rbind ?e _ = _ /\ _ => assert (K : exists ls, e = Ok ls /\ Forall GL ls) end.
    { destruct (opt_nat_eqb (Some (so_id s)) (bp_ref p)).
      - destruct (rmapM_all (restore_present (bp_unmod p) (so_layouts s)) (fun _ l' => GL l') (bp_layouts p)) as (ls1 & E1 & F1).
        { intros l Hl. pose proof (proj1 (Forall_forall _ _) Gl l Hl) as Gll. unfold restore_present.
          destruct (find_snap (ly_id l) (so_layouts s)) as [sn|] eqn:Ef; [|eauto].
          destruct (existsb (Nat.eqb (ly_id l)) (bp_unmod p)); [eauto|]. pose proof (find_snap_some _ _ _ Ef) as (Hsn & Eid).
          apply Hrestore; auto; [rewrite Forall_forall in Gss; auto|]. apply Coh; auto. apply in_or_app. auto. }
        rewrite E1. cbn [rbind]. rewrite filters_not_in.
        match goal with |- exists ls, rbind (rfold (restore_absent ?a) ?b (?c, ?d)) _ = _ /\ _ => destruct (absent_total a b c d) as (ls3 & rem & E3 & G3) end.
        + exact Gss.
        + apply F2_Forall with (Q := GL) in F1; [|auto]. rewrite Forall_forall in *. intros x Hx. apply filter_In in Hx. apply F1, Hx.
        + exact Gr.
        + intros l z Hl Hz. apply Coh; [apply in_or_app; auto|exact Hz].
        + rewrite E3. cbn [rbind]. eauto.
      - destruct (rmapM_all layout_from_snapshot (fun _ l' => GL l') (so_layouts s)) as (ls & El & Fl).
        { intros sn Hsn. apply Hfrom. exact (proj1 (Forall_forall _ _) Gss sn Hsn). }
        exists ls. split; [exact El|]. eapply F2_Forall; [|exact Fl]. auto. }
    destruct K as (ls & El & Gls). rewrite El. cbn [rbind]. rewrite (b_inst _ _ _ I).
    destruct (restored_ok ovf (bi_items inst) (so_placed s) (bp_missing p) _ (proj1 (b_miss _ _ _ I)) (sk_placed _ _ _ So)) as (m & Em).
    { intros Ho i it q Ei. rewrite <- sol_items_c. exact (Hd Ho i it q Ei). }
    rewrite Em. cbn [rbind]. assert (Lb : length (bp_bins p) = length (so_bins s)).
    { rewrite (proj1 (sk_bins _ _ _ So)). exact (proj1 (b_stock _ _ _ I)). }
    rewrite (proj2 (Nat.eqb_eq _ _) Lb). cbn [rassert rbind]. eexists. split; [reflexivity|]. split; [exact Gls|]. split; [constructor|reflexivity].
  Qed.

  (** *** the solution last seen *)
  Definition tracks (x : nat * option nat) (p : bp) (h : list solution) : Prop :=
    fst x = length h /\
    match snd x with
    | None => bp_ref p = None
    | Some k => exists s, nth_error h k = Some s /\ bp_ref p = Some (so_id s)
    end.
  Lemma tracks_same : forall x (p p' : bp) h, bp_ref p' = bp_ref p -> tracks x p h -> tracks x p' h.
  Proof. intros x p p' h E (A & B). split; [exact A|]. rewrite E. exact B. Qed.
  Lemma dereg_ref : forall (p : bp) li p', bp_deregister_layout p li = Ok p' -> bp_ref p' = bp_ref p.
  Proof.
    intros p [i|t] p' H; [|discriminate]. unfold bp_deregister_layout in H. apply rbind_ok in H as ([l ls] & _ & H). apply rbind_ok in H as (? & _ & H). apply rbind_ok in H as (? & _ & H).
    injection H as <-. reflexivity.
  Qed.
  Lemma step_tracks : forall ovf x (p : bp) h o p' h', tracks x p h -> bstep ovf (p, h) o = Ok (p', h') -> tracks (sees x o) p' h'.
  Proof.
    intros ovf x p h o p' h' T H. destruct o as [o ptr|li k b|li|old|k|]; cbn [bstep sees] in *.
    - apply rbind_ok in H as ([r p1] & E & H). injection H as <- <-. eapply tracks_same; [|exact T].
      unfold bp_place in E. apply rbind_ok in E as ([j p2] & E2 & E). apply rbind_ok in E as (l & _ & E). apply rbind_ok in E as (it & _ & E).
      apply rbind_ok in E as ([k l'] & _ & E). apply rbind_ok in E as (m & _ & E). injection E as _ <-. cbn [bp_ref].
      destruct (po_layout o); [injection E2 as _ <-; reflexivity|]. apply rbind_ok in E2 as (tl & _ & E2). unfold bp_register_layout in E2.
      apply rbind_ok in E2 as (? & _ & E2). apply rbind_ok in E2 as (? & _ & E2). injection E2 as _ <-. reflexivity.
    - apply rbind_ok in H as ([r p1] & E & H). injection H as <- <-. eapply tracks_same; [|exact T].
      unfold bp_remove in E. destruct li as [i|t]; [|discriminate]. apply rbind_ok in E as (l & _ & E). apply rbind_ok in E as ([pi l'] & _ & E).
      apply rbind_ok in E as (p2 & E2 & E). apply rbind_ok in E as (m & _ & E). injection E as _ <-. cbn [bp_ref].
      destruct (layout_is_empty l'); [|injection E2 as <-; reflexivity]. apply dereg_ref in E2. exact E2.
    - apply rbind_ok in H as (p1 & E & H). injection H as <- <-. eapply tracks_same; [|exact T]. exact (dereg_ref _ _ _ E).
    - apply rbind_ok in H as (old' & _ & H). apply rbind_ok in H as ([s p1] & E & H). injection H as <- <-. destruct T as (T1 & _).
      unfold bp_create in E. apply rbind_ok in E as (? & _ & E). apply rbind_ok in E as (? & _ & E). apply rbind_ok in E as (sl & _ & E). injection E as <- <-.
      split; cbn [fst snd]; [rewrite app_length; cbn; lia|]. rewrite T1, nth_error_app2, Nat.sub_diag by lia. cbn. eexists. split; reflexivity.
    - apply rbind_ok in H as (s & Es & H). apply expect_ok in Es. apply rbind_ok in H as (p1 & E & H). injection H as <- <-. destruct T as (T1 & _).
      unfold bp_restore in E. apply rbind_ok in E as (? & _ & E). apply rbind_ok in E as (? & _ & E). apply rbind_ok in E as (? & _ & E). injection E as <-.
      split; [exact T1|]. cbn. eauto.
    - apply rbind_ok in H as (p1 & E & H). injection H as <- <-. eapply tracks_same; [|exact T].
      unfold bp_flush in E. apply rbind_ok in E as (? & _ & E). injection E as <-. reflexivity.
  Qed.

  (** *** one step *)
  Lemma step_does : forall ovf x p h o, GI p h -> tracks x p h -> bop_ok p o -> possible ovf (snd x) p h o ->
    exists p' h', bstep ovf (p, h) o = Ok (p', h') /\ GI p' h'.
  Proof.
    intros ovf x p h o G T Ok_ Po. pose proof (gi_b _ _ G) as I. pose proof (gi_t _ _ G) as Gt. pose proof (gi_s _ _ G) as Gs.
    assert (Fin : forall p' h', bstep ovf (p, h) o = Ok (p', h') -> kept p p' -> Forall (fun s => Forall GS (so_layouts s)) h' -> exists p' h', bstep ovf (p, h) o = Ok (p', h') /\ GI p' h').
    { intros p' h' E (K1 & K2 & K3) K4. exists p', h'. split; [exact E|]. split; auto; [exact (step_inv _ _ _ _ _ _ _ Ids I E)|rewrite K3; exact Gt]. }
    destruct o as [o ptr|li k b|li|old|k|]; cbn [bstep] in *.
    - destruct (place_total p h o ptr (snd x) ovf G Ok_ Po) as (r & p' & E & K). rewrite E in *. cbn [rbind] in *. apply (Fin _ _ eq_refl K Gs).
    - destruct Po as (i & l & y & -> & El & Hk). destruct (remove_total p h i l k y b G El Hk) as (r & p' & E & K). rewrite E in *. cbn [rbind] in *. apply (Fin _ _ eq_refl K Gs).
    - destruct Po as (i & -> & Hi). destruct (dereg_total p h i G Hi) as (p' & E & K). rewrite E in *. cbn [rbind] in *. apply (Fin _ _ eq_refl K Gs).
    - destruct old as [k|].
      + cbn [possible] in Po. destruct T as (_ & T). rewrite Po in T. destruct T as (s & Es & Er). rewrite Es in *. cbn [expect rbind] in *.
        destruct (create_total' p h (Some s) G) as (s' & p' & E & K & Ks); [split; [exact (nth_error_In _ _ Es)|exact Er]|]. rewrite E in *. cbn [rbind] in *.
        apply (Fin _ _ eq_refl K). apply Forall_app. auto.
      + cbn [rbind] in *. destruct (create_total' p h None G Logic.I) as (s' & p' & E & K & Ks). rewrite E in *. cbn [rbind] in *. apply (Fin _ _ eq_refl K). apply Forall_app. auto.
    - destruct Po as (s & Es & Hd). rewrite Es in *. cbn [expect rbind] in *. rewrite (b_inst _ _ _ I) in Hd.
      destruct (restore_total p h s ovf G (nth_error_In _ _ Es) Hd) as (p' & E & K). rewrite E in *. cbn [rbind] in *. apply (Fin _ _ eq_refl K Gs).
    - destruct (flush_total p h G) as (p' & E & K). rewrite E in *. cbn [rbind] in *. apply (Fin _ _ eq_refl K Gs).
  Qed.
  Lemma step_needs : forall ovf x p h o s', BInv inst p h -> tracks x p h -> bstep ovf (p, h) o = Ok s' -> possible ovf (snd x) p h o.
  Proof.
    intros ovf x p h o s' I T H. destruct o as [o ptr|li k b|li|old|k|]; cbn [bstep possible] in *.
    - apply rbind_ok in H as ([r p1] & E & _). unfold bp_place in E. apply rbind_ok in E as ([j p2] & E2 & E). apply rbind_ok in E as (l & El & E). apply rbind_ok in E as (it & Ei & _).
      apply expect_ok in El. apply item_of_inv in Ei as (q & Ei). destruct (po_layout o) as [i|t].
      + injection E2 as <- <-. split; [exact (lt_nth _ _ _ Ei)|exact (lt_nth _ _ _ El)].
      + apply rbind_ok in E2 as (tl & Et & E2). apply expect_ok in Et. unfold bp_register_layout in E2.
        apply rbind_ok in E2 as (bs & Eb & E2). apply rbind_ok in E2 as (m & _ & E2). injection E2 as <- <-. cbn [bp_inst bp_bins clone_with_id ly_bin] in *.
        split; [exact (lt_nth _ _ _ Ei)|]. rewrite (b_tmpl _ _ _ I) in Et. apply nth_template in Et as (b & n & Hb & ->). cbn [layout_new ly_bin] in Eb. rewrite (proj2 Ids _ _ _ Hb) in Eb.
        rewrite (b_inst _ _ _ I). exists b, n. split; [exact Hb|]. destruct (stock_of p h t b n I Hb) as (a & Ea & Sum). unfold register_bin in Eb. rewrite Ea in Eb. cbn [expect rbind] in Eb.
        destruct a; [discriminate|lia].
    - apply rbind_ok in H as ([r p1] & E & _). unfold bp_remove in E. destruct li as [i|t]; [|discriminate]. apply rbind_ok in E as (l & El & E). apply expect_ok in El.
      apply rbind_ok in E as ([pi l'] & Er & _). apply remove_content in Er as (_ & _ & Er). exists i, l, pi. split; [reflexivity|]. split; [exact El|]. apply get_iter, remove_some. eauto.
    - apply rbind_ok in H as (p1 & E & _). destruct li as [i|t]; [|discriminate]. exists i. split; [reflexivity|]. unfold bp_deregister_layout in E. apply rbind_ok in E as ([l ls] & E & _).
      apply expect_ok in E. apply vremove_split in E as (a & b & -> & _ & <-). rewrite app_length. cbn. lia.
    - destruct old as [k|]; [|exact Logic.I]. apply rbind_ok in H as (old' & Eo & H). apply rbind_ok in Eo as (s & Es & Eo). apply expect_ok in Es. injection Eo as <-.
      apply rbind_ok in H as ([s1 p1] & E & _). unfold bp_create in E. apply rbind_ok in E as (? & _ & E). apply rbind_ok in E as (u & Eu & _). apply rbind_ok in Eu as (r & Er & Eu). apply expect_ok in Er.
      destruct (Nat.eqb_spec (so_id s) r) as [<-|]; [|discriminate]. destruct T as (_ & T). destruct (snd x) as [k'|]; [|congruence]. destruct T as (s2 & Es' & Er'). rewrite Er in Er'. injection Er' as Eid.
      f_equal. pose proof (b_sids _ _ _ I) as Nd. rewrite NoDup_nth_error in Nd. apply Nd.
      + rewrite map_length. exact (lt_nth _ _ _ Es').
      + rewrite (map_nth_error _ _ _ Es), (map_nth_error _ _ _ Es'). congruence.
    - apply rbind_ok in H as (s & Es & H). apply expect_ok in Es. exists s. split; [exact Es|]. intros ->. apply rbind_ok in H as (p1 & E & _). unfold bp_restore in E.
      apply rbind_ok in E as (ls & _ & E). apply rbind_ok in E as (m & Em & _). rewrite (b_inst _ _ _ I) in *.
      assert (So : sol_ok (bi_items inst) (map snd (bi_bins inst)) s) by (pose proof (b_sols _ _ _ I) as X; rewrite Forall_forall in X; apply X; exact (nth_error_In _ _ Es)).
      intros i it q Ei. rewrite sol_items_c. exact (restored_needs _ _ _ _ _ (proj1 (b_miss _ _ _ I)) (sk_placed _ _ _ So) Em i it q Ei).
    - exact Logic.I.
  Qed.
  Lemma step_exact : forall ovf x p h o, GI p h -> tracks x p h -> bop_ok p o ->
    ((exists s', bstep ovf (p, h) o = Ok s') <-> possible ovf (snd x) p h o).
  Proof.
    intros ovf x p h o G T B. split.
    - intros (s' & E). exact (step_needs ovf x p h o s' (gi_b _ _ G) T E).
    - intros P. destruct (step_does ovf x p h o G T B P) as (p' & h' & E & _). eauto.
  Qed.

  (** *** all histories *)
  Hypothesis Hnew : forall t b n, nth_error (bi_bins inst) t = Some (b, n) -> GL (layout_new t b).
  Lemma new_GI : GI (bp_new inst) [] /\ tracks (0, None) (bp_new inst) [].
  Proof.
    split; [|split; reflexivity]. split; [apply new_inv| | | |]; try constructor. rewrite Forall_forall. intros l Hl. apply In_nth_error in Hl as (t & Ht).
    apply nth_template in Ht as (b & q & Eb & ->). exact (Hnew t b q Eb).
  Qed.
  Lemma run_GI_from : forall ovf ops x p h p' h', GI p h -> tracks x p h -> bops_ok ovf (p, h) ops -> rfold (bstep ovf) ops (p, h) = Ok (p', h') ->
    GI p' h' /\ tracks (fold_left sees ops x) p' h'.
  Proof.
    induction ops as [|o ops IH]; intros x p h p' h' G T B H; cbn [rfold fold_left bops_ok fst] in *.
    - injection H as <- <-. auto.
    - apply rbind_ok in H as ([p1 h1] & E & H). destruct B as (B1 & B2). rewrite E in B2.
      pose proof (step_needs ovf x p h o _ (gi_b _ _ G) T E) as P. destruct (step_does ovf x p h o G T B1 P) as (p2 & h2 & E' & G'). rewrite E in E'. injection E' as <- <-.
      eapply IH; [exact G'| |exact B2|exact H]. eapply step_tracks; eassumption.
  Qed.
  Lemma run_both : forall ovf ops p h, bp_run ovf inst ops = Ok (p, h) -> bops_ok ovf (bp_new inst, []) ops ->
    GI p h /\ forall o, bop_ok p o -> ((exists s', bstep ovf (p, h) o = Ok s') <-> possible ovf (latest ops) p h o).
  Proof.
    intros ovf ops p h H B. destruct new_GI as (G0 & T0). destruct (run_GI_from ovf ops (0, None) _ _ p h G0 T0 B H) as (G & T). split; [exact G|]. intros o Bo. exact (step_exact ovf _ p h o G T Bo).
  Qed.
  Lemma run_exact : forall ovf ops p h o, bp_run ovf inst ops = Ok (p, h) -> bops_ok ovf (bp_new inst, []) ops -> bop_ok p o ->
    ((exists s', bstep ovf (p, h) o = Ok s') <-> possible ovf (latest ops) p h o).
  Proof. intros ovf ops p h o H B. exact (proj2 (run_both ovf ops p h H B) o). Qed.
End PP.
