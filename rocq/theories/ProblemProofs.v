(** Bookkeeping of the bin packing problem: demand, stock, identifiers, snapshots. *)
From Coq Require Import List Bool Arith ZArith Lia Permutation.
From Verif Require Import Base Num GeoModel HazardModel QTModel TransfModel HpgModel CdeModel CdeSpec
  PolyModel SlotMapModel LayoutModel ProblemModel ProblemSpec BaseProofs SlotMapProofs.
Import ListNotations.

(** *** lists *)
Lemma rmapM_F2 : forall {A B} (f : A -> res B) l l', rmapM f l = Ok l' ->
  Forall2 (fun x y => f x = Ok y) l l'.
Proof.
  induction l as [|x l IH]; intros l' H; cbn [rmapM] in H.
  - injection H as <-. constructor.
  - apply rbind_ok in H as (y & E & H). apply rbind_ok in H as (ys & E' & H). injection H as <-.
    constructor; auto.
Qed.
Lemma count_perm : forall i l l', Permutation l l' -> count i l = count i l'.
Proof.
  intros i l l' P. unfold count. induction P; cbn [filter]; try congruence.
  - destruct (Nat.eqb i x); cbn; congruence.
  - destruct (Nat.eqb i x), (Nat.eqb i y); reflexivity.
Qed.
Lemma count_app : forall i l l', count i (l ++ l') = count i l + count i l'.
Proof. intros. unfold count. rewrite filter_app, app_length. reflexivity. Qed.
Lemma count_cons : forall i x l, count i (x :: l) = (if Nat.eqb i x then 1 else 0) + count i l.
Proof. intros. unfold count. cbn [filter]. destruct (Nat.eqb i x); reflexivity. Qed.
Lemma vset_split : forall {A} i (x y : A) l, nth_error l i = Some x ->
  exists a b, l = a ++ x :: b /\ vset i y l = a ++ y :: b /\ length a = i.
Proof.
  intros A i x y l H. apply nth_error_split in H as (a & b & -> & <-).
  exists a, b. rewrite vset_app. auto.
Qed.
Lemma vremove_split : forall {A} i (x : A) l r, vremove i l = Some (x, r) ->
  exists a b, l = a ++ x :: b /\ r = a ++ b /\ length a = i.
Proof.
  intros A i x l. revert i. induction l as [|y l IH]; intros [|i] r H; cbn [vremove] in H; try discriminate.
  - injection H as -> <-. exists [], l. auto.
  - destruct (vremove i l) as [[z r']|] eqn:E; [|discriminate]. injection H as -> <-.
    destruct (IH i r' E) as (a & b & -> & -> & <-). exists (y :: a), b. auto.
Qed.
Lemma nodup_app_l : forall {A} (l l' : list A), NoDup (l ++ l') -> NoDup l.
Proof.
  induction l as [|x l IH]; intros l' H; [constructor|]. cbn in H. inversion H; subst. constructor.
  - intros X. apply H2, in_or_app. auto.
  - eapply IH; eassumption.
Qed.
Lemma nodup_app_r : forall {A} (l l' : list A), NoDup (l ++ l') -> NoDup l'.
Proof. induction l as [|x l IH]; intros l' H; [exact H|]. cbn in H. inversion H; subst. auto. Qed.
Lemma nodup_app_disj : forall {A} (l l' : list A) x, NoDup (l ++ l') -> In x l -> In x l' -> False.
Proof.
  induction l as [|y l IH]; intros l' x H Hx Hx'; [contradiction|]. cbn in H. inversion H; subst.
  destruct Hx as [<-|Hx]; [apply H2, in_or_app; auto|eapply IH; eauto].
Qed.
Lemma nodup_app : forall {A} (l l' : list A), NoDup l -> NoDup l' ->
  (forall x, In x l -> In x l' -> False) -> NoDup (l ++ l').
Proof.
  induction l as [|y l IH]; intros l' H H' Hd; [exact H'|]. cbn. inversion H; subst. constructor.
  - intros X. apply in_app_or in X as [X|X]; [contradiction|]. apply (Hd y); [left; reflexivity|exact X].
  - apply IH; auto. intros x Hx. apply Hd. right. exact Hx.
Qed.
Lemma nodup_inj : forall {A B} (f : A -> B) l x y, NoDup (map f l) -> In x l -> In y l -> f x = f y -> x = y.
Proof.
  induction l as [|z l IH]; intros x y H Hx Hy E; [contradiction|]. cbn in H. inversion H; subst.
  destruct Hx as [<-|Hx], Hy as [<-|Hy]; auto.
  - exfalso. apply H2. rewrite E. apply in_map, Hy.
  - exfalso. apply H2. rewrite <- E. apply in_map, Hx.
Qed.

Section Counts.
  Context {F : Type}.
  Local Notation item := (item F).
  (** missing quantities are demand minus the copies in [L] *)
  Definition MS (items : list (item * nat)) (missing : list Z) (L : list nat) : Prop :=
    length missing = length items /\
    Forall (fun i => i < length items) L /\
    forall i it q, nth_error items i = Some (it, q) ->
      nth_error missing i = Some (Z.of_nat q - Z.of_nat (count i L))%Z.
  Lemma MS_perm : forall items m L L', Permutation L L' -> MS items m L -> MS items m L'.
  Proof.
    intros items m L L' P (H & B & K). split; [exact H|].
    split; [eapply Permutation_Forall; eassumption|]. intros i it q E. rewrite (K i it q E).
    rewrite (count_perm i _ _ P). reflexivity.
  Qed.
  Lemma missing_add_inv : forall i d m m', missing_add i d m = Ok m' ->
    exists x, nth_error m i = Some x /\ m' = vset i (x + d)%Z m.
  Proof.
    intros i d m m' H. unfold missing_add in H. apply rbind_ok in H as (x & E & H). apply expect_ok in E.
    injection H as <-. eauto.
  Qed.
  Lemma nth_items : forall (items : list (item * nat)) (m : list Z) i x,
    length m = length items -> nth_error m i = Some x -> exists it q, nth_error items i = Some (it, q).
  Proof.
    intros items m i x E H. assert (i < length items).
    { rewrite <- E. apply nth_error_Some. congruence. }
    destruct (nth_error items i) as [[it q]|] eqn:G; [eauto|]. apply nth_error_None in G. lia.
  Qed.
  Lemma MS_register : forall items m L i m', MS items m L -> register_included m i = Ok m' ->
    MS items m' (i :: L).
  Proof.
    intros items m L i m' (H & B & K) E. apply missing_add_inv in E as (x & Ex & ->).
    assert (Hl : i < length m) by (apply nth_error_Some; congruence).
    split; [rewrite vset_length; exact H|]. split; [constructor; [lia|exact B]|].
    intros j it q Ej. rewrite count_cons.
    destruct (Nat.eq_dec i j) as [<-|Hn].
    - rewrite nth_error_vset_eq, Nat.eqb_refl by exact Hl. rewrite (K i it q Ej) in Ex. injection Ex as <-.
      f_equal. lia.
    - rewrite nth_error_vset_neq by exact Hn. rewrite (proj2 (Nat.eqb_neq j i)) by lia. apply (K j it q Ej).
  Qed.
  Lemma MS_deregister : forall items m L i m', MS items m (i :: L) -> deregister_included m i = Ok m' ->
    MS items m' L.
  Proof.
    intros items m L i m' (H & B & K) E. apply missing_add_inv in E as (x & Ex & ->).
    split; [rewrite vset_length; exact H|]. split; [inversion B; assumption|].
    intros j it q Ej. specialize (K j it q Ej).
    rewrite count_cons in K.
    assert (Hl : i < length m) by (apply nth_error_Some; congruence).
    destruct (Nat.eq_dec i j) as [<-|Hn].
    - rewrite nth_error_vset_eq by exact Hl. rewrite Nat.eqb_refl in K. rewrite K in Ex. injection Ex as <-.
      f_equal. lia.
    - rewrite nth_error_vset_neq by exact Hn. rewrite (proj2 (Nat.eqb_neq j i)) in K by lia. exact K.
  Qed.
  Lemma MS_registers : forall items K m L m', MS items m L -> rfold register_included K m = Ok m' ->
    MS items m' (K ++ L).
  Proof.
    induction K as [|i K IH]; intros m L m' H E; cbn [rfold] in E.
    - injection E as <-. exact H.
    - apply rbind_ok in E as (m1 & E1 & E). pose proof (MS_register _ _ _ _ _ H E1) as H1.
      pose proof (IH _ _ _ H1 E) as H2. eapply MS_perm; [|exact H2]. symmetry. apply Permutation_middle.
  Qed.
  Lemma MS_deregisters : forall items K m L m', MS items m (K ++ L) -> rfold deregister_included K m = Ok m' ->
    MS items m' L.
  Proof.
    induction K as [|i K IH]; intros m L m' H E; cbn [rfold] in E.
    - injection E as <-. exact H.
    - apply rbind_ok in E as (m1 & E1 & E). eapply IH; [|exact E]. eapply MS_deregister; [exact H|exact E1].
  Qed.
  (** stock *)
  Definition BSt (stock bins L : list nat) : Prop :=
    length bins = length stock /\
    forall b n, nth_error stock b = Some n -> exists a, nth_error bins b = Some a /\ a + count b L = n.
  Lemma BSt_perm : forall st bins L L', Permutation L L' -> BSt st bins L -> BSt st bins L'.
  Proof.
    intros st bins L L' P (H & K). split; [exact H|]. intros b n E. rewrite <- (count_perm b _ _ P). auto.
  Qed.
  Lemma BSt_register : forall st bins L b bins', BSt st bins L -> register_bin bins b = Ok bins' ->
    BSt st bins' (b :: L).
  Proof.
    intros st bins L b bins' (H & K) E. unfold register_bin in E. apply rbind_ok in E as (q & Eq & E).
    apply expect_ok in Eq. destruct q as [|q]; [discriminate|]. injection E as <-.
    assert (Hl : b < length bins) by (apply nth_error_Some; congruence).
    split; [rewrite vset_length; exact H|]. intros j n Ej. destruct (K j n Ej) as (a & Ea & S1).
    rewrite count_cons. destruct (Nat.eq_dec b j) as [<-|Hn].
    - rewrite nth_error_vset_eq, Nat.eqb_refl by exact Hl. exists q. split; [reflexivity|].
      rewrite Eq in Ea. injection Ea as <-. lia.
    - rewrite nth_error_vset_neq by exact Hn. rewrite (proj2 (Nat.eqb_neq j b)) by lia. eauto.
  Qed.
  Lemma BSt_deregister : forall st bins L b bins', BSt st bins (b :: L) -> deregister_bin bins b = Ok bins' ->
    BSt st bins' L.
  Proof.
    intros st bins L b bins' (H & K) E. unfold deregister_bin in E. apply rbind_ok in E as (q & Eq & E).
    apply expect_ok in Eq. injection E as <-.
    assert (Hl : b < length bins) by (apply nth_error_Some; congruence).
    split; [rewrite vset_length; exact H|]. intros j n Ej. destruct (K j n Ej) as (a & Ea & S1).
    rewrite count_cons in S1. destruct (Nat.eq_dec b j) as [<-|Hn].
    - rewrite nth_error_vset_eq by exact Hl. rewrite Nat.eqb_refl in S1. exists (S q).
      split; [reflexivity|]. rewrite Eq in Ea. injection Ea as <-. lia.
    - rewrite nth_error_vset_neq by exact Hn. rewrite (proj2 (Nat.eqb_neq j b)) in S1 by lia. eauto.
  Qed.
  (** placed quantities *)
  Definition PQ (items : list (item * nat)) (placed : list Z) (L : list nat) : Prop :=
    length placed = length items /\
    Forall (fun i => i < length items) L /\
    forall i, i < length items -> nth_error placed i = Some (Z.of_nat (count i L)).
  Lemma PQ_perm : forall items m L L', Permutation L L' -> PQ items m L -> PQ items m L'.
  Proof.
    intros items m L L' P (H & B & K). split; [exact H|].
    split; [eapply Permutation_Forall; eassumption|]. intros i E. rewrite (K i E).
    rewrite (count_perm i _ _ P). reflexivity.
  Qed.
  Lemma F2_nth : forall {A B} (P : A -> B -> Prop) l l', Forall2 P l l' -> length l = length l' /\
    forall i x, nth_error l i = Some x -> exists y, nth_error l' i = Some y /\ P x y.
  Proof.
    intros A B P l l' H. induction H as [|x y l l' Hxy H (IH1 & IH2)]; cbn [length].
    - split; [reflexivity|]. intros [|i] z E; discriminate.
    - split; [congruence|]. intros [|i] z E; cbn in *; [injection E as <-; eauto|eauto].
  Qed.
  Lemma nth_combine_seq : forall {A} (l : list A) s i x, nth_error l i = Some x ->
    nth_error (combine (seq s (length l)) l) i = Some (s + i, x).
  Proof.
    induction l as [|y l IH]; intros s [|i] x H; cbn in *; try discriminate.
    - injection H as ->. rewrite Nat.add_0_r. reflexivity.
    - rewrite (IH (S s) i x H). do 2 f_equal. lia.
  Qed.
  Lemma item_qty_inv : forall (items : list (item * nat)) i q, item_qty items i = Ok q ->
    exists it, nth_error items i = Some (it, q).
  Proof.
    intros items i q H. unfold item_qty in H. apply rbind_ok in H as ([it q'] & E & H).
    apply expect_ok in E. injection H as <-. eauto.
  Qed.
  Lemma placed_PQ : forall items m L r, MS items m L -> placed_qtys items m = Ok r -> PQ items r L.
  Proof.
    intros items m L r (H & B & K) E. unfold placed_qtys in E. apply rmapM_F2 in E.
    apply F2_nth in E as (E1 & E2). rewrite combine_length, seq_length, Nat.min_id in E1.
    split; [congruence|]. split; [exact B|]. intros i Hi. destruct (nth_error items i) as [[it q]|] eqn:G;
      [|apply nth_error_None in G; lia].
    specialize (K i it q G). destruct (E2 i _ (nth_combine_seq m 0 i _ K)) as (y & Ey & Hy).
    cbn [fst snd plus] in Hy. apply rbind_ok in Hy as (q' & Hq & Hy). injection Hy as <-.
    apply item_qty_inv in Hq as (it' & Hq). rewrite G in Hq. injection Hq as <- <-.
    rewrite Ey. f_equal. lia.
  Qed.
  Lemma nth_seq : forall n s i, i < n -> nth_error (seq s n) i = Some (s + i).
  Proof.
    induction n as [|n IH]; intros s [|i] H; cbn; try lia.
    - rewrite Nat.add_0_r. reflexivity.
    - rewrite IH by lia. f_equal. lia.
  Qed.
  Lemma restored_MS : forall ovf items pl m L r, length m = length items -> PQ items pl L ->
    restored_missing ovf items pl m = Ok r -> MS items r L.
  Proof.
    intros ovf items pl m L r Hl (H & B & K) E. unfold restored_missing in E. apply rmapM_F2 in E.
    apply F2_nth in E as (E1 & E2). rewrite seq_length in E1. split; [congruence|]. split; [exact B|].
    intros i it q G. assert (Hi : i < length items) by (apply nth_error_Some; congruence).
    destruct (E2 i i) as (y & Ey & Hy); [rewrite nth_seq by lia; reflexivity|].
    unfold restored_qty in Hy. apply rbind_ok in Hy as (q' & Hq & Hy).
    apply item_qty_inv in Hq as (it' & Hq). rewrite G in Hq. injection Hq as <- <-.
    rewrite (K i Hi) in Hy. cbn [expect rbind] in Hy. rewrite Ey.
    destruct (ovf && _); [discriminate|]. injection Hy as <-. reflexivity.
  Qed.
End Counts.

Section PP.
  Context {F : Type} {N : Num F} {D : Type} {ED : EqD D} {BS : BSearch} {DC : DComp F D}.
  Local Notation item := (item F).
  Local Notation bin := (bin F D).
  Local Notation layout := (layout F D).
  Local Notation lsnap := (lsnap F D).
  Local Notation solution := (solution F D).
  Local Notation bp := (bp F D).
  Local Notation pitem := (pitem F D).
  Local Notation cont := (nat * bin * smap pitem)%type.

  (** *** what the layout operations do to the contents *)
  Lemma place_content : forall (l : layout) it d ptr k l', layout_place l it d ptr = Ok (k, l') ->
    ly_id l' = ly_id l /\ ly_bin l' = ly_bin l /\ sm_insert (ly_items l) (pi_new it d ptr) = (k, ly_items l').
  Proof.
    intros l it d ptr k l' H. unfold layout_place in H.
    destruct (sm_insert (ly_items l) (pi_new it d ptr)) as [k0 m] eqn:E.
    apply rbind_ok in H as (c & _ & H). injection H as <- <-. auto.
  Qed.
  Lemma remove_content : forall (l : layout) k b p l', layout_remove l k b = Ok (p, l') ->
    ly_id l' = ly_id l /\ ly_bin l' = ly_bin l /\ sm_remove (ly_items l) k = Some (p, ly_items l').
  Proof.
    intros l k b p l' H. unfold layout_remove in H. apply rbind_ok in H as ([p0 m] & E & H).
    apply expect_ok in E. apply rbind_ok in H as (c & _ & H). injection H as <- <-. auto.
  Qed.
  Lemma restore_content : forall (l : layout) s l', layout_restore l s = Ok l' ->
    ly_id l = ls_id s /\ content l' = (ls_id s, ly_bin l, ls_items s).
  Proof.
    intros l s l' H. unfold layout_restore in H. apply rbind_ok in H as (u & E & H).
    assert (ly_id l = ls_id s) by (destruct (Nat.eqb_spec (ly_id l) (ls_id s)); [assumption|discriminate]).
    apply rbind_ok in H as (c & _ & H). injection H as <-. split; [assumption|]. unfold content. cbn. congruence.
  Qed.
  Lemma from_snapshot_content : forall s (l : layout), layout_from_snapshot s = Ok l -> content l = snap_content s.
  Proof. intros s l H. apply restore_content in H as (_ & H). exact H. Qed.
  Lemma snapshot_content : forall (l : layout) s l', layout_snapshot l = Ok (s, l') ->
    content l' = content l /\ snap_content s = content l /\ ls_usage s = layout_usage l.
  Proof.
    intros l s l' H. unfold layout_snapshot in H. apply rbind_ok in H as ([sn c] & _ & H).
    injection H as <- <-. repeat split; reflexivity.
  Qed.
  Lemma flush_content : forall l l' : layout, layout_flush l = Ok l' -> content l' = content l.
  Proof. intros l l' H. unfold layout_flush in H. apply rbind_ok in H as (c & _ & H). injection H as <-. reflexivity. Qed.

  Definition c_id (c : cont) : nat := fst (fst c).
  Definition c_bin (c : cont) : bin := snd (fst c).
  Definition c_items (c : cont) : smap pitem := snd c.
  Definition c_list (c : cont) : list nat := map (@pi_item F D) (sm_values (c_items c)).
  Lemma layout_usage_content : forall l l' : layout, content l = content l' -> layout_usage l = layout_usage l'.
  Proof. intros [i b m c] [i' b' m' c'] E. unfold content in E. cbn in E. injection E as <- <- <-. reflexivity. Qed.
  Definition c_usage (c : cont) : F :=
    fdiv (fsum (map (fun p => p_area (a_obj (pi_shape p))) (sm_values (c_items c)))) (bn_area (c_bin c)).
  Lemma usage_c : forall l : layout, layout_usage l = c_usage (content l).
  Proof. reflexivity. Qed.

  (** *** all contents ever recorded *)
  Definition recorded (p : bp) (h : list solution) : list cont :=
    map content (bp_layouts p ++ bp_removed p) ++ flat_map (fun s => map snap_content (so_layouts s)) h.
  Record CInv (ctr : nat) (L : list cont) : Prop := {
    ci_le : forall c, In c L -> c_id c <= ctr;
    ci_sm : forall c, In c L -> sm_ok (c_items c);
    ci_coh : forall c c', In c L -> In c' L -> c_id c = c_id c' -> c_bin c = c_bin c'
  }.
  Lemma CInv_derived : forall ctr L L', CInv ctr L ->
    (forall c', In c' L' -> exists c, In c L /\ c_id c' = c_id c /\ c_bin c' = c_bin c /\ sm_ok (c_items c')) ->
    CInv ctr L'.
  Proof.
    intros ctr L L' [A B C] H. split.
    - intros c Hc. destruct (H c Hc) as (d & Hd & E1 & E2 & Sok). rewrite E1. auto.
    - intros c Hc. destruct (H c Hc) as (d & Hd & E1 & E2 & Sok). exact Sok.
    - intros c c' Hc Hc' E. destruct (H c Hc) as (d & Hd & E1 & E2 & _).
      destruct (H c' Hc') as (d' & Hd' & E1' & E2' & _). rewrite E2, E2'. apply C; auto. congruence.
  Qed.
  Lemma CInv_incl : forall ctr L L', CInv ctr L -> incl L' L -> CInv ctr L'.
  Proof.
    intros ctr L L' H I. eapply CInv_derived; [exact H|]. intros c Hc. exists c.
    pose proof (ci_sm _ _ H c (I _ Hc)). auto.
  Qed.
  Lemma CInv_fresh : forall ctr L b m, CInv ctr L -> sm_ok m -> CInv (S ctr) ((S ctr, b, m) :: L).
  Proof.
    intros ctr L b m [A B C] Sm. split.
    - intros c [<-|Hc]; [cbn; lia|]. specialize (A c Hc). lia.
    - intros c [<-|Hc]; [exact Sm|auto].
    - intros c c' [<-|Hc] [<-|Hc'] E; auto.
      + specialize (A c' Hc'). cbn in E. unfold c_id in *. cbn in *. lia.
      + specialize (A c Hc). cbn in E. unfold c_id in *. cbn in *. lia.
  Qed.

  (** *** a recorded solution *)
  Record sol_ok (items : list (item * nat)) (stock : list nat) (s : solution) : Prop := {
    sk_ids : NoDup (map (@ls_id F D) (so_layouts s));
    sk_placed : PQ items (so_placed s) (flat_map c_list (map snap_content (so_layouts s)));
    sk_bins : BSt stock (so_bins s) (map (fun s => bn_id (ls_bin s)) (so_layouts s));
    sk_ne : Forall (fun s => sm_values (ls_items s) <> []) (so_layouts s);
    sk_usage : Forall (fun s => ls_usage s = c_usage (snap_content s)) (so_layouts s);
    sk_target : so_target s = map snd items
  }.

  (** layout [l] is as recorded in [s] *)
  Definition same_as (s : solution) (l : layout) : Prop :=
    exists sn, find_snap (ly_id l) (so_layouts s) = Some sn /\ snap_content sn = content l.
  Record BInv (inst : bpinst F D) (p : bp) (h : list solution) : Prop := {
    b_inst : bp_inst p = inst;
    b_tmpl : bp_templates p = bp_templates (bp_new inst);
    b_ctr : length (bi_bins inst) <= bp_lctr p;
    b_miss : MS (bi_items inst) (bp_missing p) (items_in (bp_layouts p));
    b_stock : BSt (map snd (bi_bins inst)) (bp_bins p) (map (fun l => bn_id (ly_bin l)) (bp_layouts p));
    b_ids : NoDup (map (@ly_id F D) (bp_layouts p ++ bp_removed p));
    b_rec : CInv (bp_lctr p) (recorded p h);
    b_ne : Forall (fun l => sm_values (ly_items l) <> []) (bp_layouts p);
    b_sids : NoDup (map (@so_id F D) h);
    b_sle : Forall (fun s => so_id s <= bp_sctr p) h;
    b_sols : Forall (sol_ok (bi_items inst) (map snd (bi_bins inst))) h;
    b_und : NoDup (bp_unmod p);
    b_uni : incl (bp_unmod p) (map (@ly_id F D) (bp_layouts p));
    b_ref : match bp_ref p with
            | None => bp_unmod p = []
            | Some r => exists s, In s h /\ so_id s = r /\
                forall l, In l (bp_layouts p) -> In (ly_id l) (bp_unmod p) -> same_as s l
            end
  }.

  Lemma items_in_c : forall ls : list layout, items_in ls = flat_map c_list (map content ls).
  Proof. induction ls as [|l ls IH]; cbn; [reflexivity|]. rewrite <- IH. reflexivity. Qed.

  Lemma new_inv : forall inst, BInv inst (bp_new inst) [].
  Proof.
    intros inst. unfold bp_new. split; cbn [bp_inst bp_layouts bp_templates bp_missing bp_bins bp_lctr bp_sctr
      bp_unmod bp_ref bp_removed app map items_in flat_map].
    - reflexivity.
    - reflexivity.
    - rewrite map_length, combine_length, seq_length, Nat.min_id. lia.
    - split; [apply map_length|]. split; [constructor|]. intros i it q E. rewrite (map_nth_error _ _ _ E). cbn. f_equal. lia.
    - split; [reflexivity|]. intros b n E. exists n. split; [exact E|]. cbn. lia.
    - constructor.
    - split; unfold recorded; cbn; intros; contradiction.
    - constructor.
    - constructor.
    - constructor.
    - constructor.
    - constructor.
    - intros x [].
    - reflexivity.
  Qed.

  (** *** dirty tracking *)
  Lemma layout_changed_in : forall u id x, In x (layout_changed u id) -> In x u.
  Proof.
    intros u id x H. unfold layout_changed in H. destruct (position (Nat.eqb id) u) as [i|] eqn:E; [|exact H].
    destruct (vremove i u) as [[y r]|] eqn:V; [|exact H].
    apply vremove_split in V as (a & b & -> & -> & _). apply in_app_or in H. apply in_or_app. cbn. tauto.
  Qed.
  Lemma layout_changed_nodup : forall u id, NoDup u -> NoDup (layout_changed u id) /\ ~ In id (layout_changed u id).
  Proof.
    intros u id H. unfold layout_changed. destruct (position (Nat.eqb id) u) as [i|] eqn:E.
    - apply position_some in E as (a & x & b & -> & <- & Ex & _). apply Nat.eqb_eq in Ex. subst x.
      rewrite vremove_app. split; [eapply NoDup_remove_1; exact H|eapply NoDup_remove_2; exact H].
    - split; [exact H|]. intros X. pose proof (proj1 (position_none _ _) E id X) as Y. rewrite Nat.eqb_refl in Y.
      discriminate.
  Qed.

  Lemma items_in_app : forall l l' : list layout, items_in (l ++ l') = items_in l ++ items_in l'.
  Proof. intros. unfold items_in. apply flat_map_app. Qed.
  Definition lst (l : layout) : list nat := map (@pi_item F D) (sm_values (ly_items l)).
  Lemma items_in_cons : forall (l : layout) ls, items_in (l :: ls) = lst l ++ items_in ls.
  Proof. reflexivity. Qed.

  (** an open layout is modified *)
  Lemma upd_inv : forall inst p h a l b l' m u, BInv inst p h -> bp_layouts p = a ++ l :: b ->
    ly_id l' = ly_id l -> ly_bin l' = ly_bin l -> sm_ok (ly_items l') -> sm_values (ly_items l') <> [] ->
    MS (bi_items inst) m (items_in (a ++ l' :: b)) ->
    NoDup u -> incl u (bp_unmod p) -> ~ In (ly_id l) u ->
    BInv inst (BP (bp_inst p) (a ++ l' :: b) (bp_templates p) m (bp_bins p) (bp_lctr p) (bp_sctr p) u
                  (bp_ref p) (bp_removed p)) h.
  Proof.
    intros inst p h a l b l' m u [I1 I2 I3 I4 I5 I6 I7 I8 I9 I10 I11 I12 I13 I14] E Ei Eb Sm Ne M Un Ui Ux.
    split; cbn [bp_inst bp_layouts bp_templates bp_missing bp_bins bp_lctr bp_sctr bp_unmod bp_ref bp_removed];
      auto.
    - rewrite E in I5. rewrite map_app in *. cbn [map] in *. rewrite Eb. exact I5.
    - rewrite E in I6. rewrite !map_app in *. cbn [map] in *. rewrite Ei. exact I6.
    - eapply CInv_derived; [exact I7|]. intros c Hc. unfold recorded in *.
      cbn [bp_layouts bp_removed] in Hc. rewrite E in *.
      apply in_app_or in Hc as [Hc|Hc].
      + apply in_map_iff in Hc as (x & <- & Hx). apply in_app_or in Hx as [Hx|Hx].
        * apply in_app_or in Hx as [Hx|[<-|Hx]].
          -- exists (content x). assert (K : In (content x) (map content ((a ++ l :: b) ++ bp_removed p) ++
               flat_map (fun s => map snap_content (so_layouts s)) h)).
             { apply in_or_app. left. apply in_map. rewrite <- app_assoc. apply in_or_app. auto. }
             split; [exact K|]. split; [reflexivity|]. split; [reflexivity|]. apply (ci_sm _ _ I7 _ K).
          -- exists (content l). split.
             { apply in_or_app. left. apply in_map. rewrite <- app_assoc. apply in_or_app. right. left. reflexivity. }
             split; [exact Ei|]. split; [exact Eb|exact Sm].
          -- exists (content x). assert (K : In (content x) (map content ((a ++ l :: b) ++ bp_removed p) ++
               flat_map (fun s => map snap_content (so_layouts s)) h)).
             { apply in_or_app. left. apply in_map. apply in_or_app. left. apply in_or_app. right. right. exact Hx. }
             split; [exact K|]. split; [reflexivity|]. split; [reflexivity|]. apply (ci_sm _ _ I7 _ K).
        * exists (content x). assert (K : In (content x) (map content ((a ++ l :: b) ++ bp_removed p) ++
            flat_map (fun s => map snap_content (so_layouts s)) h)).
          { apply in_or_app. left. apply in_map. apply in_or_app. auto. }
          split; [exact K|]. split; [reflexivity|]. split; [reflexivity|]. apply (ci_sm _ _ I7 _ K).
      + assert (K : In c (map content ((a ++ l :: b) ++ bp_removed p) ++
            flat_map (fun s => map snap_content (so_layouts s)) h)) by (apply in_or_app; auto).
        exists c. split; [exact K|]. split; [reflexivity|]. split; [reflexivity|]. apply (ci_sm _ _ I7 _ K).
    - rewrite E in I8. apply Forall_app in I8 as (A & B). inversion B; subst. apply Forall_app. auto.
    - intros x Hx. apply Ui, I13 in Hx. rewrite E in Hx. rewrite map_app in *. cbn [map] in *. rewrite Ei. exact Hx.
    - destruct (bp_ref p) as [r|].
      + destruct I14 as (s & Hs & Er & K). exists s. split; [exact Hs|]. split; [exact Er|].
        intros x Hx Hu. apply in_app_or in Hx as [Hx|[<-|Hx]].
        * apply K; [rewrite E; apply in_or_app; auto|apply Ui, Hu].
        * exfalso. apply Ux. rewrite <- Ei. exact Hu.
        * apply K; [rewrite E; apply in_or_app; right; right; exact Hx|apply Ui, Hu].
      + rewrite I14 in Ui. destruct u as [|x u]; [reflexivity|]. destruct (Ui x). left; reflexivity.
  Qed.

  (** a new layout is opened *)
  Lemma add_inv : forall inst p h l' m bins u, BInv inst p h ->
    ly_id l' = S (bp_lctr p) -> sm_ok (ly_items l') -> sm_values (ly_items l') <> [] ->
    MS (bi_items inst) m (items_in (bp_layouts p ++ [l'])) ->
    BSt (map snd (bi_bins inst)) bins (map (fun l => bn_id (ly_bin l)) (bp_layouts p ++ [l'])) ->
    NoDup u -> incl u (bp_unmod p) ->
    BInv inst (BP (bp_inst p) (bp_layouts p ++ [l']) (bp_templates p) m bins (S (bp_lctr p)) (bp_sctr p) u
                  (bp_ref p) (bp_removed p)) h.
  Proof.
    intros inst p h l' m bins u [I1 I2 I3 I4 I5 I6 I7 I8 I9 I10 I11 I12 I13 I14] Ei Sm Ne M B Un Ui.
    assert (Fr : forall l, In l (bp_layouts p ++ bp_removed p) -> ly_id l <= bp_lctr p).
    { intros l Hl. apply (ci_le _ _ I7 (content l)). apply in_or_app. left. apply in_map, Hl. }
    split; cbn [bp_inst bp_layouts bp_templates bp_missing bp_bins bp_lctr bp_sctr bp_unmod bp_ref bp_removed];
      auto.
    - rewrite <- app_assoc. cbn [app].
      assert (P : Permutation (map (@ly_id F D) (bp_layouts p ++ l' :: bp_removed p))
                              (ly_id l' :: map (@ly_id F D) (bp_layouts p ++ bp_removed p))).
      { rewrite !map_app. cbn [map]. symmetry. apply Permutation_middle. }
      eapply Permutation_NoDup; [symmetry; exact P|]. constructor; [|exact I6].
      intros X. apply in_map_iff in X as (x & Ex & Hx). specialize (Fr x Hx). lia.
    - eapply CInv_incl; [apply (CInv_fresh _ _ (ly_bin l') (ly_items l') I7 Sm)|].
      intros c Hc. unfold recorded in *. cbn [bp_layouts bp_removed] in Hc.
      apply in_app_or in Hc as [Hc|Hc].
      + apply in_map_iff in Hc as (x & <- & Hx). apply in_app_or in Hx as [Hx|Hx].
        * apply in_app_or in Hx as [Hx|[<-|[]]].
          -- right. apply in_or_app. left. apply in_map, in_or_app. auto.
          -- left. unfold content. rewrite Ei. reflexivity.
        * right. apply in_or_app. left. apply in_map, in_or_app. auto.
      + right. apply in_or_app. auto.
    - apply Forall_app. auto.
    - intros x Hx. apply Ui, I13 in Hx. rewrite map_app. apply in_or_app. auto.
    - destruct (bp_ref p) as [r|].
      + destruct I14 as (s & Hs & Er & K). exists s. split; [exact Hs|]. split; [exact Er|].
        intros x Hx Hu. apply Ui in Hu. apply in_app_or in Hx as [Hx|[<-|[]]].
        * apply K; assumption.
        * apply I13 in Hu. apply in_map_iff in Hu as (y & Ey & Hy).
          assert (ly_id y <= bp_lctr p) by (apply Fr, in_or_app; auto). lia.
      + rewrite I14 in Ui. destruct u as [|x u]; [reflexivity|]. destruct (Ui x). left; reflexivity.
  Qed.

  (** a layout is closed *)
  Lemma del_inv : forall inst p h a l b l' m bins u, BInv inst p h -> bp_layouts p = a ++ l :: b ->
    ly_id l' = ly_id l -> ly_bin l' = ly_bin l -> sm_ok (ly_items l') ->
    MS (bi_items inst) m (items_in (a ++ b)) ->
    BSt (map snd (bi_bins inst)) bins (map (fun l => bn_id (ly_bin l)) (a ++ b)) ->
    NoDup u -> incl u (bp_unmod p) -> ~ In (ly_id l) u ->
    BInv inst (BP (bp_inst p) (a ++ b) (bp_templates p) m bins (bp_lctr p) (bp_sctr p) u
                  (bp_ref p) (bp_removed p ++ [l'])) h.
  Proof.
    intros inst p h a l b l' m bins u [I1 I2 I3 I4 I5 I6 I7 I8 I9 I10 I11 I12 I13 I14] E Ei Eb Sm M B Un Ui Ux.
    assert (In' : forall x, In x (a ++ b) -> In x (bp_layouts p)).
    { intros x Hx. rewrite E. apply in_app_or in Hx. apply in_or_app. cbn. tauto. }
    split; cbn [bp_inst bp_layouts bp_templates bp_missing bp_bins bp_lctr bp_sctr bp_unmod bp_ref bp_removed];
      auto.
    - rewrite E in I6.
      eapply Permutation_NoDup; [|exact I6]. rewrite !map_app. cbn [map]. rewrite Ei, <- !app_assoc. cbn [app].
      apply Permutation_app_head. rewrite app_assoc. symmetry. etransitivity; [symmetry; apply Permutation_cons_append|].
      reflexivity.
    - eapply CInv_derived; [exact I7|]. intros c Hc. unfold recorded in *. cbn [bp_layouts bp_removed] in Hc.
      apply in_app_or in Hc as [Hc|Hc].
      + apply in_map_iff in Hc as (x & <- & Hx). apply in_app_or in Hx as [Hx|Hx].
        * assert (K : In (content x) (recorded p h)).
          { apply in_or_app. left. apply in_map, in_or_app. left. apply In', Hx. }
          exists (content x). split; [exact K|]. split; [reflexivity|]. split; [reflexivity|]. apply (ci_sm _ _ I7 _ K).
        * apply in_app_or in Hx as [Hx|[<-|[]]].
          -- assert (K : In (content x) (recorded p h)).
             { apply in_or_app. left. apply in_map, in_or_app. right. exact Hx. }
             exists (content x). split; [exact K|]. split; [reflexivity|]. split; [reflexivity|]. apply (ci_sm _ _ I7 _ K).
          -- exists (content l). split.
             { apply in_or_app. left. apply in_map, in_or_app. left. rewrite E. apply in_or_app. right. left. reflexivity. }
             split; [exact Ei|]. split; [exact Eb|exact Sm].
      + assert (K : In c (recorded p h)) by (apply in_or_app; auto).
        exists c. split; [exact K|]. split; [reflexivity|]. split; [reflexivity|]. apply (ci_sm _ _ I7 _ K).
    - rewrite Forall_forall in *. intros x Hx. apply I8, In', Hx.
    - intros x Hx. pose proof (Ui x Hx) as Hx'. apply I13 in Hx'. rewrite E in Hx'. rewrite map_app in *. cbn [map] in *.
      apply in_app_or in Hx' as [?|[<-|?]]; [apply in_or_app; auto|contradiction|apply in_or_app; auto].
    - destruct (bp_ref p) as [r|].
      + destruct I14 as (s & Hs & Er & K). exists s. split; [exact Hs|]. split; [exact Er|].
        intros x Hx Hu. apply K; [apply In', Hx|apply Ui, Hu].
      + rewrite I14 in Ui. destruct u as [|x u]; [reflexivity|]. destruct (Ui x). left; reflexivity.
  Qed.
End PP.
