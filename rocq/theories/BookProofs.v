(** Proofs about finding placed items by their hazards, and about the totals of problems. *)
From Coq Require Import List Bool Arith ZArith Lia Permutation.
From Verif Require Import Base Num GeoModel HazardModel QTModel TransfModel HpgModel CdeModel
  PolyModel SlotMapModel LayoutModel ProblemModel ProblemSpec BaseProofs CdeSpec HazVecProofs SlotMapProofs QTProofs CdeProofs CdeHistProofs CdeCollectProofs
  LayoutProofs ProblemProofs ProblemOpsProofs StripProofs MirrorProofs HistBinProofs BookSpec.
Import ListNotations.

Section Key.
  Context {F : Type} {N : Num F} {D : Type} {ED : EqD D} {BS : BSearch} {DC : DComp F D}.
  Hypothesis BSok : bsearch_ok BS.
  Local Notation layout := (layout F D).
  Local Notation entity := (entity D).

  Lemma key_iff : forall cat (l : layout), LI cat l -> forall e k,
    hazard_to_key l e = Some k <-> exists p, sm_get (ly_items l) k = Some p /\ e = PlacedItem (pi_item p) (pi_dt p).
  Proof.
    intros cat l (_ & (_ & _ & Nd) & _) e k. unfold hazard_to_key. split.
    - intros H. destruct (find _ _) as [[k' p]|] eqn:E; [|discriminate]. cbn in H. injection H as ->. apply find_some in E as (I & E).
      apply ent_eqb_ok in E. cbn [snd] in E. exists p. split; [apply get_iter; exact I|]. symmetry. exact E.
    - intros (p & G & ->). apply get_iter in G. destruct (find _ _) as [[k' p']|] eqn:E.
      + apply find_some in E as (I & E). apply ent_eqb_ok in E. cbn [snd] in E. cbn [option_map fst]. f_equal.
        unfold sm_values in Nd. rewrite map_map in Nd.
        assert (Inj : forall (L : list (skey * pitem F D)), NoDup (map (fun x => pi_entity (snd x)) L) -> In (k', p') L -> In (k, p) L -> pi_entity p' = pi_entity p -> k' = k).
        { induction L as [|[a b] L IH]; intros ND H1 H2 Ee; [destruct H1|]. cbn in ND. inversion ND as [|? ? Na ND']; subst.
          destruct H1 as [H1|H1], H2 as [H2|H2].
          - congruence.
          - injection H1 as -> ->. exfalso. apply Na. apply in_map_iff. exists (k, p). cbn. auto.
          - injection H2 as -> ->. exfalso. apply Na. apply in_map_iff. exists (k', p'). cbn. auto.
          - auto. }
        exact (Inj _ Nd I G E).
      + exfalso. pose proof (find_none _ _ E _ G) as K. cbn [snd] in K.
        assert (ent_eqb (pi_entity p) (PlacedItem (pi_item p) (pi_dt p)) = true) by (apply ent_eqb_ok; reflexivity). congruence.
  Qed.
  Lemma lay_LI : forall cat id b ops (l : layout) sn, good_bin b ->
    lops_ok cat (layout_new id b, []) ops -> rfold lstep ops (layout_new id b, []) = Ok (l, sn) -> LI cat l.
  Proof. intros cat id b ops l sn G V H. eapply (lrun_LI BSok); [apply (new_LI BSok); exact G|constructor|exact V|exact H]. Qed.
  Theorem key_found : forall cat id b ops (l : layout) sn, good_bin b ->
    lops_ok cat (layout_new id b, []) ops -> rfold lstep ops (layout_new id b, []) = Ok (l, sn) ->
    forall e k, hazard_to_key l e = Some k <-> exists p, sm_get (ly_items l) k = Some p /\ e = PlacedItem (pi_item p) (pi_dt p).
  Proof. intros cat id b ops l sn G V H. apply (key_iff cat), (lay_LI cat id b ops l sn G V H). Qed.

  Lemma reg_item : forall cat (l : layout) e, LI cat l -> (exists o, In o (registered (ly_cde l)) /\ o_ent o = e) -> is_item e ->
    exists k p, hazard_to_key l e = Some k /\ sm_get (ly_items l) k = Some p /\ e = PlacedItem (pi_item p) (pi_dt p).
  Proof.
    intros cat l e I (o & Ho & Eo) Ie. pose proof I as (G & _ & R). unfold registered in Ho.
    assert (He : In e (map (@h_ent F D) (cd_dyn (ly_cde l)))).
    { assert (Hx : In e (map (@h_ent F D) (cd_static (ly_cde l) ++ cd_dyn (ly_cde l)))).
      { rewrite <- Eo. apply in_map_iff in Ho as (h & <- & Hh). apply in_map_iff. exists h. split; [reflexivity|]. exact Hh. }
      rewrite map_app in Hx. apply in_app_or in Hx as [Hx|Hx]; [|exact Hx]. rewrite (rl_static _ _ _ _ _ _ _ R) in Hx.
      exfalso. apply bin_not_placed in Hx. apply Hx. destruct e; try destruct Ie. exact Logic.I. }
    apply in_map_iff in He as (h & Eh & Hh). apply (in_map fact_of) in Hh.
    apply (Permutation_in _ (rl_facts _ _ _ _ _ _ _ R)) in Hh. cbn [fst] in Hh. apply in_map_iff in Hh as (p & Ep & Hp).
    assert (E : e = PlacedItem (pi_item p) (pi_dt p)).
    { apply (f_equal (fun f => fst (fst f))) in Ep. cbn in Ep. rewrite <- Eh, <- Ep. reflexivity. }
    unfold sm_values in Hp. apply in_map_iff in Hp as ([k p'] & E' & Hk). cbn in E'. subst p'. apply get_iter in Hk.
    exists k, p. split; [apply (key_iff cat l I); eauto|]. auto.
  Qed.
  (** what a query reports can be traced to a placed item *)
  Theorem reported_found : forall cat id b ops (l : layout) sn, good_bin b ->
    lops_ok cat (layout_new id b, []) ops -> rfold lstep ops (layout_new id b, []) = Ok (l, sn) ->
    forall c irr, good_collection c -> exists new, collect (ly_cde l) c irr [] = Ok new /\
      forall e, In e new -> (is_item e -> exists k p, hazard_to_key l e = Some k /\ sm_get (ly_items l) k = Some p /\ e = PlacedItem (pi_item p) (pi_dt p)) /\
        (~ is_item e -> hazard_to_key l e = None).
  Proof.
    intros cat id b ops l sn G V H c irr Gc. pose proof (lay_LI cat id b ops l sn G V H) as I. pose proof I as (_ & _ & R). pose proof (rl_inv _ _ _ _ _ _ _ R) as Iv.
    assert (No : forall e, ~ is_item e -> hazard_to_key l e = None).
    { intros e Ne. destruct (hazard_to_key l e) as [k|] eqn:E; [|reflexivity]. apply (key_iff cat l I) in E as (p & _ & ->). exfalso. apply Ne. exact Logic.I. }
    assert (K : exists new, collect (ly_cde l) c irr [] = Ok ([] ++ new) /\ forall e, In e new -> is_item e -> exists o, In o (registered (ly_cde l)) /\ o_ent o = e).
    { destruct c as [s|s t|q]; cbn [collect good_collection] in *.
      - destruct (collect_poly_spec _ _ _ s irr [] Iv Gc) as (new & -> & _ & A & _). exists new. split; [reflexivity|]. intros e He _. destruct (A e He) as (_ & _ & o & Ho & Eo & _). eauto.
      - destruct (collect_surrogate_spec _ _ _ s t irr [] Iv Gc) as (new & -> & _ & A & _). exists new. split; [reflexivity|]. intros e He _. destruct (A e He) as (_ & _ & o & Ho & Eo & _). eauto.
      - destruct (hazards_within_spec _ _ _ q irr [] Iv) as (new & -> & _ & A & _). exists new. split; [reflexivity|]. intros e He Ie.
        destruct (A e He) as (_ & _ & [(o & Ho & Eo & _)|(-> & _)]); [eauto|destruct Ie]. }
    destruct K as (new & E & A). exists new. split; [exact E|]. intros e He. split; [|apply No]. intros Ie. apply (reg_item cat l e I); [exact (A e He Ie)|exact Ie].
  Qed.
End Key.

(** *** totals *)
Lemma total_once : forall n a j (v : nat -> nat), a <= j < a + n -> list_sum (map (fun i => v i * (if Nat.eqb i j then 1 else 0)) (seq a n)) = v j.
Proof.
  induction n as [|n IH]; intros a j v H; [lia|]. cbn [seq map list_sum fold_right]. fold (list_sum (map (fun i => v i * (if Nat.eqb i j then 1 else 0)) (seq (S a) n))).
  destruct (Nat.eqb_spec a j) as [->|Ne].
  - assert (Z : forall m b, j < b -> list_sum (map (fun i => v i * (if Nat.eqb i j then 1 else 0)) (seq b m)) = 0).
    { induction m as [|m IHm]; intros b Hb; [reflexivity|]. cbn [seq map list_sum fold_right]. fold (list_sum (map (fun i => v i * (if Nat.eqb i j then 1 else 0)) (seq (S b) m))).
      rewrite (IHm (S b)) by lia. destruct (Nat.eqb_spec b j); lia. }
    rewrite Z by lia. lia.
  - rewrite IH by lia. lia.
Qed.
Lemma sum_add : forall (l : list nat) (f g : nat -> nat), list_sum (map (fun i => f i + g i) l) = list_sum (map f l) + list_sum (map g l).
Proof. induction l as [|x l IH]; intros f g; [reflexivity|]. cbn [map list_sum fold_right]. fold (list_sum (map (fun i => f i + g i) l)) (list_sum (map f l)) (list_sum (map g l)). rewrite IH. lia. Qed.
Lemma sum_eq : forall (l : list nat) (f g : nat -> nat), (forall i, In i l -> f i = g i) -> list_sum (map f l) = list_sum (map g l).
Proof. intros l f g H. f_equal. apply map_ext_in. exact H. Qed.
(** adding up values one by one, or by kind *)
Lemma by_kind : forall n (v : nat -> nat) (L : list nat), Forall (fun i => i < n) L ->
  list_sum (map v L) = list_sum (map (fun i => v i * count i L) (seq 0 n)).
Proof.
  intros n v L H. induction H as [|j L Hj _ IH].
  - cbn. rewrite (sum_eq _ _ (fun _ => 0)) by (intros; unfold count; cbn; lia). induction (seq 0 n) as [|x l IHl]; [reflexivity|]. cbn in *. exact IHl.
  - cbn [map list_sum fold_right]. fold (list_sum (map v L)). rewrite IH, <- (total_once n 0 j v) by lia. rewrite <- sum_add. apply sum_eq. intros i _.
    unfold count. cbn [filter]. destruct (Nat.eqb i j); cbn [length]; lia.
Qed.
Lemma count_sum : forall n (L : list nat), Forall (fun i => i < n) L -> length L = list_sum (map (fun i => count i L) (seq 0 n)).
Proof.
  intros n L H. rewrite <- (sum_eq _ (fun i => 1 * count i L)) by (intros; lia). rewrite <- (by_kind n (fun _ => 1) L H).
  induction L as [|x L IH]; [reflexivity|]. cbn [length map list_sum fold_right]. fold (list_sum (map (fun _ => 1) L)). inversion H; subst. rewrite IH by assumption. lia.
Qed.
Lemma list_seq : forall (A : Type) (f : A -> nat) (l : list A) a, list_sum (map f l) = list_sum (map (fun i => match nth_error l (i - a) with Some x => f x | None => 0 end) (seq a (length l))).
Proof.
  intros A f l. induction l as [|x l IH]; intros a; [reflexivity|]. cbn [length seq map list_sum fold_right].
  fold (list_sum (map f l)) (list_sum (map (fun i => match nth_error (x :: l) (i - a) with Some x => f x | None => 0 end) (seq (S a) (length l)))).
  rewrite Nat.sub_diag. cbn [nth_error]. f_equal. rewrite (IH (S a)). apply sum_eq. intros i Hi. apply in_seq in Hi. replace (i - a) with (S (i - S a)) by lia. reflexivity.
Qed.

Section Tot.
  Context {F : Type} {N : Num F} {D : Type} {ED : EqD D} {BS : BSearch} {DC : DComp F D}.
  Local Notation item := (item F).
  Local Notation bp := (bp F D).
  Local Notation sp := (sp F D).

  Lemma MS_total : forall (items : list (item * nat)) m L, MS items m L -> Z.of_nat (total_item_qty items) = (Zsum m + Z.of_nat (length L))%Z.
  Proof.
    intros items m L (Lm & Fl & K). rewrite (count_sum _ _ Fl). unfold total_item_qty. clear Fl. rewrite (list_seq _ snd items 0).
    assert (G : forall n a m', length m' = n -> (forall i z, nth_error m' i = Some z -> exists it q, nth_error items (a + i) = Some (it, q) /\ z = (Z.of_nat q - Z.of_nat (count (a + i) L))%Z) ->
      Z.of_nat (list_sum (map (fun i => match nth_error items (i - 0) with Some x => snd x | None => 0 end) (seq a n))) =
      (Zsum m' + Z.of_nat (list_sum (map (fun i => count i L) (seq a n))))%Z).
    { induction n as [|n IH]; intros a m' Hm Hz; [destruct m'; [reflexivity|discriminate]|]. destruct m' as [|z m']; [discriminate|]. cbn [seq map list_sum fold_right Zsum].
      fold (list_sum (map (fun i => match nth_error items (i - 0) with Some x => snd x | None => 0 end) (seq (S a) n))) (list_sum (map (fun i => count i L) (seq (S a) n))).
      destruct (Hz 0 z eq_refl) as (it & q & E & ->). rewrite Nat.add_0_r in *. rewrite Nat.sub_0_r, E. cbn [snd].
      specialize (IH (S a) m' ltac:(cbn in Hm; lia)). rewrite !Nat2Z.inj_add, IH; [lia|]. intros i z Hi. destruct (Hz (S i) z Hi) as (it' & q' & E' & ->).
      replace (S a + i) with (a + S i) by lia. eauto. }
    apply (G (length items) 0 m Lm). intros i z Hi. assert (Li : i < length items) by (rewrite <- Lm; apply nth_error_Some; congruence).
    destruct (nth_error items i) as [[it q]|] eqn:E; [|apply nth_error_None in E; lia]. exists it, q. split; [exact E|]. rewrite (K i it q E) in Hi. cbn [Nat.add]. congruence.
  Qed.
  Theorem bp_total : forall items bins (inst : bpinst F D) ovf ops (p : bp) h, bpinst_new items bins = Ok inst -> bp_run ovf inst ops = Ok (p, h) ->
    Z.of_nat (total_item_qty items) = (Zsum (bp_missing p) + Z.of_nat (length (items_in (bp_layouts p))))%Z.
  Proof.
    intros items bins inst ovf ops p h Hi Hr. pose proof (b_miss _ _ _ (run_inv _ _ _ _ _ (inst_ids _ _ _ Hi) Hr)) as K.
    assert (bi_items inst = items) as E by (unfold bpinst_new in Hi; apply rbind_ok in Hi as (? & _ & Hi); injection Hi as <-; reflexivity).
    rewrite E in K. exact (MS_total _ _ _ K).
  Qed.
  Theorem sp_total : forall items hgt (inst : spinst F) ovf tol w c ptr ops (p : sp) h, spinst_new items hgt = Ok inst -> sp_run ovf tol inst w c ptr ops = Ok (p, h) ->
    Z.of_nat (total_item_qty items) = (Zsum (sp_missing p) + Z.of_nat (length (items_in [sp_layout p])))%Z.
  Proof.
    intros items hgt inst ovf tol w c ptr ops p h Hi Hr. pose proof (s_miss _ _ _ (srun_inv _ _ _ _ _ _ _ _ _ (sinst_ids _ _ _ Hi) Hr)) as K.
    assert (si_items inst = items) as E by (unfold spinst_new in Hi; apply rbind_ok in Hi as (? & _ & Hi); injection Hi as <-; reflexivity).
    rewrite E in K. unfold items_in. cbn [flat_map]. rewrite app_nil_r. exact (MS_total _ _ _ K).
  Qed.
  Theorem bp_cost : forall items bins (inst : bpinst F D) ovf ops (p : bp) h, bpinst_new items bins = Ok inst -> bp_run ovf inst ops = Ok (p, h) ->
    length (bp_bins p) = length bins /\
    used_bin_cost (bp_layouts p) = list_sum (map (fun x => bn_value (fst (fst x)) * (snd (fst x) - snd x)) (combine bins (bp_bins p))).
  Proof.
    intros items bins inst ovf ops p h Hi Hr. pose proof (inst_ids _ _ _ Hi) as Ids. pose proof (b_stock _ _ _ (run_inv _ _ _ _ _ Ids Hr)) as (Ls & K).
    assert (bi_bins inst = bins) as E by (unfold bpinst_new in Hi; apply rbind_ok in Hi as (? & _ & Hi); injection Hi as <-; reflexivity).
    rewrite E in *. rewrite map_length in Ls. split; [exact Ls|].
    assert (G : Forall (fun x : bin F D * nat => exists q, nth_error (bi_bins inst) (bn_id (fst x)) = Some (fst x, q)) (bi_bins inst)).
    { rewrite Forall_forall. intros [b q] Hb. apply In_nth_error in Hb as (i & Hx). rewrite <- (proj2 Ids _ _ _ Hx) in Hx. cbn [fst]. eauto. }
    pose proof (brun_PB (fun b => exists q, nth_error (bi_bins inst) (bn_id b) = Some (b, q)) inst ovf ops p h G Hr) as B. pose proof (pb_layouts _ _ _ B) as Bl.
    unfold PL in Bl. rewrite E in Bl. clear G B. set (val := fun i => match nth_error bins i with Some x => bn_value (fst x) | None => 0 end).
    set (L := map (fun l => bn_id (ly_bin l)) (bp_layouts p)) in *.
    assert (El : used_bin_cost (bp_layouts p) = list_sum (map val L)).
    { unfold used_bin_cost, L. rewrite map_map. f_equal. apply map_ext_in. intros l Hl. rewrite Forall_forall in Bl. destruct (Bl l Hl) as (q & Eq). unfold val. rewrite Eq. reflexivity. }
    assert (Fl : Forall (fun i => i < length bins) L).
    { unfold L. rewrite Forall_map. eapply Forall_impl; [|exact Bl]. intros l (q & Eq). apply nth_error_Some. congruence. }
    rewrite El, (by_kind _ _ _ Fl). rewrite (list_seq _ _ (combine bins (bp_bins p)) 0). rewrite combine_length, Ls, Nat.min_id. apply sum_eq. intros i Hx. apply in_seq in Hx.
    rewrite Nat.sub_0_r. destruct (nth_error bins i) as [[b n]|] eqn:Eb; [|apply nth_error_None in Eb; lia].
    destruct (K i n) as (a & Ea & Sa); [rewrite (map_nth_error _ _ _ Eb); reflexivity|].
    assert (Ec : nth_error (combine bins (bp_bins p)) i = Some ((b, n), a)).
    { clear -Eb Ea. revert i Eb Ea. generalize (bp_bins p). induction bins as [|x l IH]; intros l' i E1 E2; [destruct i; discriminate|]. destruct l' as [|y l']; [destruct i; discriminate|].
      destruct i as [|i]; cbn in *; [congruence|auto]. }
    rewrite Ec. cbn [fst snd]. unfold val. rewrite Eb. cbn [fst]. f_equal. lia.
  Qed.
End Tot.
