(** The main loop of the reference optimizer on bin packing instances. *)
From Coq Require Import List Bool Arith ZArith Lia Permutation.
From Verif Require Import Base Num GeoModel HazardModel QTModel TransfModel HpgModel CdeModel CdeSpec
  PolyModel SlotMapModel LayoutModel ProblemModel ProblemSpec LbfModel BaseProofs HazVecProofs ProblemProofs
  ProblemOpsProofs ProblemThmProofs LayoutProofs MirrorProofs Instances HullProofs LbfSpec LbfProofs LbfRunProofs.
From Coq Require Import Reals Lra.
From Verif Require Import GeoModel HazardModel QTModel TransfModel HpgModel CdeModel CdeSpec GeoSpec PlaceSpec ShapeSpec LbfModel LbfSpec.
Import ListNotations.

Section B.
  Variable M : R.
  #[local] Instance NLB : Num R := RNumT Reqb M.
  #[local] Existing Instance RTrig.
  Context {ED : EqD (dtransf R)} {BS : BSearch} {G : Type} {RG : Rng R G} {X : Extra R}.
  Local Notation dtransf := (dtransf R).
  Local Notation layout := (layout R dtransf).
  Local Notation popt := (popt dtransf).
  Local Notation bp := (bp R dtransf).
  Local Notation solution := (solution R dtransf).

  (** *** one search over the layouts *)
  (** no sample tried in any of the layouts was accepted *)
  Lemma find_placement_ok : forall ls it cfg (g : G) o g', find_placement ls it cfg g = Ok (o, g') ->
    match o with
    | Some o => exists li l irr, In (li, l) ls /\ tolerated l it irr /\ po_layout o = li /\ po_item o = it_id it /\
                  passes l it irr (compose (po_dt o)) /\ exists a, allowed (it_rot it) a /\ turns a (compose (po_dt o))
    | None => Forall (fun x => exists g1 g2 drawn, sample_layout (fst x) (snd x) it cfg g1 = Ok (None, g2, drawn)) ls
    end.
  Proof.
    induction ls as [|[li l] ls IH]; intros it cfg g o g' H; cbn [find_placement] in H.
    - injection H as <- <-. constructor.
    - apply rbind_ok in H as ([[o1 g1] drawn] & Es & H). destruct o1 as [o1|].
      + injection H as <- <-. apply (sample_layout_ok M) in Es as (irr & u & Tl & _ & Fr & _ & Eli & Eit & Id & (_ & Ps) & _).
        exists li, l, irr. split; [left; reflexivity|]. repeat (split; [assumption|]). rewrite Forall_forall in Fr. apply (Fr _ Id).
      + apply IH in H. destruct o as [o|].
        * destruct H as (li' & l' & irr & H1 & H2). exists li', l', irr. split; [right; exact H1|exact H2].
        * constructor; [eauto|exact H].
  Qed.
  Lemma candidates_ok : forall (p : bp) ls, bp_candidates p = Ok ls ->
    (forall li l, In (li, l) ls -> target p li = Some l) /\
    (forall li l, target p li = Some l ->
       match li with Real _ => True | Template t => exists n, nth_error (bp_bins p) (bn_id (ly_bin l)) = Some (S n) end -> In (li, l) ls).
  Proof.
    intros p ls H. unfold bp_candidates in H. apply rbind_ok in H as (ts & Et & H). apply rmapM_F2 in H.
    assert (T : forall li l, bp_get_layout p li = Ok l <-> target p li = Some l).
    { intros [i|t] l; cbn [bp_get_layout target]; split; intros E; [apply expect_ok in E; exact E|rewrite E; reflexivity|apply expect_ok in E; exact E|rewrite E; reflexivity]. }
    assert (In1 : forall li l, In (li, l) ls <-> In li (map Real (seq 0 (length (bp_layouts p))) ++ ts) /\ target p li = Some l).
    { clear Et. revert H. generalize (map Real (seq 0 (length (bp_layouts p))) ++ ts). intros xs H. induction H as [|x [li' l'] xs ls Hx H IH]; intros li l.
      - cbn. tauto.
      - apply rbind_ok in Hx as (l0 & El & E). injection E as -> ->. apply T in El. cbn [In]. rewrite IH. split.
        + intros [E|(A & B)]; [injection E as -> ->; auto|auto].
        + intros ([->|A] & B); [left; congruence|auto]. }
    split; intros li l; rewrite In1; [intros (_ & E); exact E|]. intros Tg St. split; [|exact Tg]. apply in_or_app.
    destruct li as [i|t]; [left; apply in_map, in_seq; cbn [target] in Tg; assert (nth_error (bp_layouts p) i <> None) as Hn by congruence; apply nth_error_Some in Hn; lia|right].
    unfold templates_with_stock in Et. apply rbind_ok in Et as (os & Eo & Et). injection Et as <-. apply rmapM_F2 in Eo.
    destruct St as (n & En). cbn [target] in Tg.
    assert (C : In (t, l) (combine (seq 0 (length (bp_templates p))) (bp_templates p))).
    { pose proof (nth_combine_seq (bp_templates p) 0 t l Tg) as C. cbn in C. eapply nth_error_In. exact C. }
    assert (K : In (Some (Template t)) os).
    { clear In1 T H. induction Eo as [|x y xs ys Hxy Eo IH]; [destruct C|]. destruct C as [->|C]; [|right; auto]. left.
      cbn [fst snd] in Hxy. rewrite En in Hxy. cbn in Hxy. congruence. }
    clear -K. induction os as [|o os IH]; [destruct K|]. destruct K as [->|K]; cbn [omap]; [left; reflexivity|]. destruct o; [right|]; auto.
  Qed.

  (** *** placing *)
  Lemma place_missing : forall inst (p : bp) h o ptr r p', BInv inst p h -> bp_place p o ptr = Ok (r, p') ->
    exists x, nth_error (bp_missing p) (po_item o) = Some x /\ bp_missing p' = vset (po_item o) (x - 1)%Z (bp_missing p).
  Proof.
    intros inst p h o ptr r p' I H. unfold bp_place in H. apply rbind_ok in H as ([j p1] & E1 & H). apply rbind_ok in H as (l1 & El & H).
    apply rbind_ok in H as (it1 & Eit & H). apply rbind_ok in H as ([k l'] & Epl & H). apply rbind_ok in H as (m & Em & H). injection H as <- <-.
    cbn [bp_missing]. apply missing_add_inv in Em as (x & Ex & ->). assert (Eq : bp_missing p1 = bp_missing p).
    { destruct (po_layout o) as [j0|t]; [congruence|]. apply rbind_ok in E1 as (tl & Et & E1). apply expect_ok in Et.
      rewrite (b_tmpl _ _ _ I) in Et. apply nth_template in Et as (b & qb & Hb & ->). unfold bp_register_layout in E1.
      apply rbind_ok in E1 as (bins & _ & E1). apply rbind_ok in E1 as (mm & Em & E1). injection E1 as <- <-. cbn in Em. injection Em as <-. reflexivity. }
    rewrite Eq in *. exists x. auto.
  Qed.
  Definition no_debt (p : bp) : Prop := forall i x, nth_error (bp_missing p) i = Some x -> (0 <= x)%Z.
  Lemma place_nonneg : forall (p p' : bp) i x, no_debt p -> nth_error (bp_missing p) i = Some x -> (0 < x)%Z ->
    bp_missing p' = vset i (x - 1)%Z (bp_missing p) -> no_debt p'.
  Proof.
    intros p p' i x Nn Ex Px E j y Ey. rewrite E in Ey. destruct (Nat.eq_dec i j) as [<-|Hn].
    - assert (L : i < length (bp_missing p)) by (apply nth_error_Some; congruence). rewrite nth_error_vset_eq in Ey by exact L. injection Ey as <-. lia.
    - rewrite nth_error_vset_neq in Ey by exact Hn. exact (Nn j y Ey).
  Qed.

  (** *** the copies of one item *)
  Variable inst : bpinst R dtransf.
  Hypothesis Ids : ids_ok inst.
  Lemma fill_ok : forall ovf cfg i it q, nth_error (bi_items inst) i = Some (it, q) -> forall fuel p (g : G) ptr p' g' ptr',
    BInv inst p [] -> no_debt p -> bp_fill fuel cfg i it (p, g, ptr) = Ok (p', g', ptr') ->
    exists ops, rfold (bstep ovf) (place_ops ops) (p, []) = Ok (p', []) /\ all_checked p ops /\ BInv inst p' [] /\ no_debt p'.
  Proof.
    intros ovf cfg i it q Hi. induction fuel as [|fuel IH]; intros p g ptr p' g' ptr' I Nn H; cbn [bp_fill] in H;
      apply rbind_ok in H as (m & Em & H); apply expect_ok in Em; destruct (Z.ltb_spec 0 m) as [Pm|Pm]; try discriminate.
    - injection H as <- <- <-. exists []. split; [reflexivity|]. split; [exact Logic.I|]. auto.
    - apply rbind_ok in H as (ls & Els & H). apply rbind_ok in H as ([o g1] & Ef & H). apply find_placement_ok in Ef. destruct o as [o|].
      + apply rbind_ok in H as ([r p1] & Ep & H). destruct Ef as (li & l & irr & Hin & Tl & Eli & Eit & Ps & Tn).
        apply (proj1 (candidates_ok p ls Els)) in Hin. pose proof (proj1 Ids _ _ _ Hi) as Eid.
        assert (I1 : BInv inst p1 []) by (eapply place_inv; eassumption).
        destruct (place_missing _ _ _ _ _ _ _ I Ep) as (x & Ex & Em1). rewrite Eit, Eid in Ex, Em1. rewrite Em in Ex. injection Ex as <-.
        pose proof (place_nonneg _ _ _ _ Nn Em Pm Em1) as Nn1. destruct (IH _ _ _ _ _ _ I1 Nn1 H) as (ops & R1 & C1 & I2 & N2).
        exists ((o, ptr) :: ops). split; [|split; [|split; [exact I2|exact N2]]].
        * cbn [place_ops map rfold fst snd bstep]. rewrite Ep. cbn [rbind]. exact R1.
        * cbn [all_checked]. split.
          -- exists l, it, q, irr. rewrite Eli. split; [exact Hin|]. rewrite (b_inst _ _ _ I), Eit, Eid. repeat (split; [assumption|]). exact Tn.
          -- intros k p2 E2. rewrite Ep in E2. injection E2 as <- <-. exact C1.
      + injection H as <- <- <-. exists []. split; [reflexivity|]. split; [exact Logic.I|]. auto.
    - injection H as <- <- <-. exists []. split; [reflexivity|]. split; [exact Logic.I|]. auto.
  Qed.
  Lemma ops_app : forall ovf ops1 ops2 (p p1 p2 : bp), rfold (bstep ovf) (place_ops ops1) (p, []) = Ok (p1, []) -> all_checked p ops1 ->
    rfold (bstep ovf) (place_ops ops2) (p1, []) = Ok (p2, []) -> all_checked p1 ops2 ->
    rfold (bstep ovf) (place_ops (ops1 ++ ops2)) (p, []) = Ok (p2, []) /\ all_checked p (ops1 ++ ops2).
  Proof.
    intros ovf. induction ops1 as [|[o ptr] ops1 IH]; intros ops2 p p1 p2 R1 C1 R2 C2.
    - cbn in R1. injection R1 as <-. auto.
    - cbn [place_ops map rfold fst snd] in R1. apply rbind_ok in R1 as ([px hx] & E & R1). pose proof E as Est. cbn [bstep] in E.
      apply rbind_ok in E as ([r py] & E & Z). injection Z as -> <-. destruct C1 as (C1 & C1').
      destruct (IH ops2 px p1 p2 R1 (C1' _ _ E) R2 C2) as (A & B). split.
      + cbn [app place_ops map rfold fst snd]. rewrite Est. exact A.
      + cbn [app all_checked]. split; [exact C1|]. intros k p' E'. rewrite E in E'. injection E' as <- <-. exact B.
  Qed.
  Lemma split_checked : forall ovf ops1 ops2 (p p1 : bp), rfold (bstep ovf) (place_ops ops1) (p, []) = Ok (p1, []) -> all_checked p (ops1 ++ ops2) ->
    all_checked p ops1 /\ all_checked p1 ops2.
  Proof.
    intros ovf. induction ops1 as [|[o ptr] ops1 IH]; intros ops2 p p1 R1 C.
    - cbn in R1. injection R1 as <-. split; [exact Logic.I|exact C].
    - cbn [place_ops map rfold fst snd] in R1. apply rbind_ok in R1 as ([px hx] & E & R1). cbn [bstep] in E.
      apply rbind_ok in E as ([r py] & E & Z). injection Z as -> <-. cbn [app all_checked] in C. destruct C as (C1 & C2).
      destruct (IH ops2 px p1 R1 (C2 _ _ E)) as (A & B). split; [|exact B]. cbn [all_checked]. split; [exact C1|].
      intros k p' E'. rewrite E in E'. injection E' as <- <-. exact A.
  Qed.
  Lemma fill_items_ok : forall ovf cfg is p (g : G) ptr p' g' ptr', BInv inst p [] -> no_debt p ->
    rfold (bp_fill_item cfg) is (p, g, ptr) = Ok (p', g', ptr') ->
    exists ops, rfold (bstep ovf) (place_ops ops) (p, []) = Ok (p', []) /\ all_checked p ops /\ BInv inst p' [] /\ no_debt p'.
  Proof.
    intros ovf cfg. induction is as [|i is IH]; intros p g ptr p' g' ptr' I Nn H; cbn [rfold] in H.
    - injection H as <- <- <-. exists []. split; [reflexivity|]. split; [exact Logic.I|]. auto.
    - apply rbind_ok in H as ([[p1 g1] ptr1] & E & H). unfold bp_fill_item in E. cbn [fst] in E. apply rbind_ok in E as (it & Eit & E).
      apply rbind_ok in E as (m & _ & E). rewrite (b_inst _ _ _ I) in Eit. apply item_of_inv in Eit as (q & Eit).
      destruct (fill_ok ovf cfg i it q Eit _ _ _ _ _ _ _ I Nn E) as (ops1 & R1 & C1 & I1 & N1).
      destruct (IH _ _ _ _ _ _ I1 N1 H) as (ops2 & R2 & C2 & I2 & N2).
      destruct (ops_app _ _ _ _ _ _ R1 C1 R2 C2) as (A & B). exists (ops1 ++ ops2). auto.
  Qed.
  (** the loop ends: more rounds than missing copies change nothing *)
  Lemma fill_fuel : forall cfg i it, nth_error (map fst (bi_items inst)) i = Some it -> forall f1 f2 p (g : G) ptr m, BInv inst p [] ->
    nth_error (bp_missing p) i = Some m -> Z.to_nat m <= f1 -> Z.to_nat m <= f2 ->
    bp_fill f1 cfg i it (p, g, ptr) = bp_fill f2 cfg i it (p, g, ptr).
  Proof.
    intros cfg i it Hi. rewrite nth_error_map in Hi. destruct (nth_error (bi_items inst) i) as [[it0 q]|] eqn:Hq; [|discriminate]. injection Hi as ->.
    induction f1 as [|f1 IH]; intros f2 p g ptr m I Em L1 L2.
    - assert ((m <= 0)%Z) as L by lia. destruct f2; cbn [bp_fill]; rewrite Em; cbn [expect rbind]; destruct (Z.ltb_spec 0 m); try lia; reflexivity.
    - destruct f2 as [|f2].
      + assert ((m <= 0)%Z) as L by lia. cbn [bp_fill]; rewrite Em; cbn [expect rbind]; destruct (Z.ltb_spec 0 m); try lia; reflexivity.
      + cbn [bp_fill]. rewrite Em. cbn [expect rbind]. destruct (Z.ltb_spec 0 m) as [Pm|]; [|reflexivity].
        destruct (bp_candidates p) as [ls|]; [|reflexivity]. cbn [rbind]. destruct (find_placement ls it cfg g) as [[o g1]|] eqn:Ef; [|reflexivity].
        cbn [rbind]. destruct o as [o|]; [|reflexivity]. destruct (bp_place p o ptr) as [[r p1]|] eqn:Ep; [|reflexivity]. cbn [rbind].
        apply find_placement_ok in Ef as (li & l & irr & _ & _ & _ & Eit & _).
        destruct (place_missing _ _ _ _ _ _ _ I Ep) as (x & Ex & Em1). rewrite Eit, (proj1 Ids _ _ _ Hq) in Ex, Em1. rewrite Em in Ex. injection Ex as <-.
        apply IH with (m := (m - 1)%Z); [eapply place_inv; eassumption| |lia|lia]. rewrite Em1. apply nth_error_vset_eq. apply nth_error_Some. congruence.
  Qed.

  Lemma lbf_bp_run : forall ovf cfg (g : G) ptr p s p', lbf_bp inst cfg g ptr = Ok (p, s, p') ->
    exists ops, bp_run ovf inst (place_ops ops) = Ok (p, []) /\ all_checked (bp_new inst) ops /\ no_debt p /\ bp_create p None = Ok (s, p').
  Proof.
    intros ovf cfg g ptr p s p' H. unfold lbf_bp in H. apply rbind_ok in H as ([] & _ & H). apply rbind_ok in H as (order & _ & H).
    apply rbind_ok in H as ([[p1 g1] ptr1] & E & H). apply rbind_ok in H as ([s1 p2] & Ec & H). injection H as -> -> ->.
    apply (fill_items_ok ovf) in E as (ops & R1 & C1 & _ & N1); [exists ops; auto|apply new_inv|].
    intros i x Ex. cbn [bp_new bp_missing] in Ex. rewrite nth_error_map in Ex. destruct (nth_error (bi_items inst) i); [|discriminate]. injection Ex as <-. lia.
  Qed.

  (** *** the order of the items *)
  Lemma order_perm : forall (items : list (item R * nat)) order, item_order items = Ok order -> Permutation order (seq 0 (length items)).
  Proof.
    intros items order H. unfold item_order in H. destruct (Nat.ltb (length items) 2); [injection H as <-; reflexivity|].
    apply rbind_ok in H as (ks & Ek & H). injection H as <-.
    assert (P : Permutation (sort_by (fun k : nat * R => fneg (snd k)) ks) ks) by exact (proj1 (proj2 (sort_ok (fun k : nat * R => Ropp (snd k)) ks))).
    rewrite (Permutation_map fst P). clear P. apply rmapM_F2 in Ek.
    assert (E : map fst ks = map fst (combine (seq 0 (length items)) items)).
    { induction Ek as [|x y xs ys Hxy Ek IH]; [reflexivity|]. apply rbind_ok in Hxy as (sp0 & _ & Hxy). injection Hxy as <-. cbn. f_equal. exact IH. }
    rewrite E. clear. generalize 0%nat. induction items as [|x items IH]; intros n; [reflexivity|]. cbn. constructor. apply IH.
  Qed.

  (** *** an item is left out only after a search that found nothing *)
  Lemma fill_gives_up : forall cfg i it q, nth_error (bi_items inst) i = Some (it, q) -> forall fuel p (g : G) ptr p' g' ptr' m,
    BInv inst p [] -> bp_fill fuel cfg i it (p, g, ptr) = Ok (p', g', ptr') -> nth_error (bp_missing p') i = Some m -> (0 < m)%Z -> no_room p' it cfg.
  Proof.
    intros cfg i it q Hi. induction fuel as [|fuel IH]; intros p g ptr p' g' ptr' m I H Em' Pm'; cbn [bp_fill] in H;
      apply rbind_ok in H as (m0 & Em & H); apply expect_ok in Em; destruct (Z.ltb_spec 0 m0) as [Pm|Pm]; try discriminate.
    - injection H as <- <- <-. rewrite Em in Em'. injection Em' as <-. lia.
    - apply rbind_ok in H as (ls & Els & H). apply rbind_ok in H as ([o g1] & Ef & H). apply find_placement_ok in Ef. destruct o as [o|].
      + apply rbind_ok in H as ([r p1] & Ep & H). eapply IH; [|exact H|exact Em'|exact Pm']. eapply place_inv; eassumption.
      + injection H as <- <- <-. intros li l Tg St. rewrite Forall_forall in Ef. exact (Ef (li, l) (proj2 (candidates_ok p ls Els) li l Tg St)).
    - injection H as <- <- <-. rewrite Em in Em'. injection Em' as <-. lia.
  Qed.
  Lemma fill_others : forall cfg i it q j, nth_error (bi_items inst) i = Some (it, q) -> j <> i -> forall fuel p (g : G) ptr p' g' ptr',
    BInv inst p [] -> bp_fill fuel cfg i it (p, g, ptr) = Ok (p', g', ptr') -> nth_error (bp_missing p') j = nth_error (bp_missing p) j.
  Proof.
    intros cfg i it q j Hi Hj. induction fuel as [|fuel IH]; intros p g ptr p' g' ptr' I H; cbn [bp_fill] in H;
      apply rbind_ok in H as (m0 & Em & H); apply expect_ok in Em; destruct (Z.ltb_spec 0 m0) as [Pm|Pm]; try discriminate; try (injection H as <- <- <-; reflexivity).
    apply rbind_ok in H as (ls & Els & H). apply rbind_ok in H as ([o g1] & Ef & H). apply find_placement_ok in Ef. destruct o as [o|]; [|injection H as <- <- <-; reflexivity].
    apply rbind_ok in H as ([r p1] & Ep & H). destruct Ef as (li & l & irr & _ & _ & _ & Eit & _).
    destruct (place_missing _ _ _ _ _ _ _ I Ep) as (x & _ & Em1). rewrite Eit, (proj1 Ids _ _ _ Hi) in Em1.
    rewrite (IH _ _ _ _ _ _ (place_inv _ _ _ _ _ _ _ Ids I Ep) H), Em1. apply nth_error_vset_neq. congruence.
  Qed.
  Lemma fills_give_up : forall ovf cfg i it q, nth_error (bi_items inst) i = Some (it, q) -> forall is p (g : G) ptr p' g' ptr' m,
    NoDup is -> In i is -> BInv inst p [] -> no_debt p -> rfold (bp_fill_item cfg) is (p, g, ptr) = Ok (p', g', ptr') ->
    nth_error (bp_missing p') i = Some m -> (0 < m)%Z ->
    exists ops1 ops2 p1, rfold (bstep ovf) (place_ops ops1) (p, []) = Ok (p1, []) /\ rfold (bstep ovf) (place_ops ops2) (p1, []) = Ok (p', []) /\
      all_checked p (ops1 ++ ops2) /\ no_room p1 it cfg.
  Proof.
    intros ovf cfg i it q Hi. induction is as [|j is IH]; intros p g ptr p' g' ptr' m Nd Hin I Nn H Em Pm; [destruct Hin|].
    inversion Nd as [|? ? Nj Nd']; subst. pose proof H as Hall. cbn [rfold] in H. apply rbind_ok in H as ([[p1 g1] ptr1] & E & H).
    assert (J1 : BInv inst p1 [] /\ no_debt p1 /\ exists ops, rfold (bstep ovf) (place_ops ops) (p, []) = Ok (p1, []) /\ all_checked p ops).
    { assert (Hone : rfold (bp_fill_item cfg) [j] (p, g, ptr) = Ok (p1, g1, ptr1)) by (cbn [rfold]; rewrite E; reflexivity).
      destruct (fill_items_ok ovf _ _ _ _ _ _ _ _ I Nn Hone) as (ops & A & B & C & D). split; [exact C|]. split; [exact D|]. exists ops. auto. }
    destruct J1 as (I1 & N1 & ops0 & R0 & C0). destruct (Nat.eq_dec j i) as [->|Hn].
    - destruct (fill_items_ok ovf _ _ _ _ _ _ _ _ I1 N1 H) as (ops2 & R2 & C2 & _ & _).
      exists ops0, ops2, p1. split; [exact R0|]. split; [exact R2|]. split; [exact (proj2 (ops_app _ _ _ _ _ _ R0 C0 R2 C2))|].
      unfold bp_fill_item in E. cbn [fst] in E. apply rbind_ok in E as (it0 & Eit & E). rewrite (b_inst _ _ _ I) in Eit. apply item_of_inv in Eit as (q0 & Eit).
      rewrite Hi in Eit. injection Eit as <- <-. apply rbind_ok in E as (m0 & _ & E).
      apply (fill_gives_up cfg i it q Hi _ _ _ _ _ _ _ m I E); [|exact Pm]. rewrite <- Em. symmetry.
      (* later items do not touch the count of this one *)
      clear -H I1 N1 Nj Ids. revert p1 g1 ptr1 H I1 N1. induction is as [|k is IH]; intros p1 g1 ptr1 H I1 N1; cbn [rfold] in H; [injection H as <- <- <-; reflexivity|].
      apply rbind_ok in H as ([[p2 g2] ptr2] & E & H). pose proof E as E0. unfold bp_fill_item in E. cbn [fst] in E. apply rbind_ok in E as (it0 & Eit & E).
      rewrite (b_inst _ _ _ I1) in Eit. apply item_of_inv in Eit as (q0 & Eit). apply rbind_ok in E as (m0 & _ & E).
      destruct (fill_ok false cfg k it0 q0 Eit _ _ _ _ _ _ _ I1 N1 E) as (_ & _ & _ & I2 & N2).
      rewrite (IH (fun X => Nj (or_intror X)) p2 g2 ptr2 H I2 N2). eapply fill_others; [exact Eit| |exact I1|exact E]. intros ->. apply Nj. left. reflexivity.
    - destruct Hin as [->|Hin]; [congruence|]. destruct (IH _ _ _ _ _ _ _ Nd' Hin I1 N1 H Em Pm) as (ops1 & ops2 & px & A & B & C & D).
      destruct (split_checked ovf ops1 ops2 _ _ A C) as (C1 & C2). exists (ops0 ++ ops1), ops2, px. 
      destruct (ops_app _ _ _ _ _ _ R0 C0 A C1) as (A' & C'). split; [exact A'|]. split; [exact B|]. split; [|exact D].
      exact (proj2 (ops_app _ _ _ _ _ _ A' C' B C2)).
  Qed.
End B.
