(** Solving from any state reached by checked placements; taking items out. *)
From Coq Require Import List Bool Arith ZArith Lia Permutation.
From Verif Require Import Base Num GeoModel HazardModel QTModel TransfModel HpgModel CdeModel CdeSpec
  PolyModel SlotMapModel LayoutModel ProblemModel ProblemSpec LbfModel BaseProofs HazVecProofs SlotMapProofs ProblemProofs
  ProblemOpsProofs ProblemThmProofs LayoutProofs MirrorProofs Instances HullProofs LbfSpec LbfProofs LbfRunProofs LbfBpProofs LbfThmProofs StripProofs LbfSpProofs HistPackSpec HistPackProofs ReachProofs AgainModel AgainSpec.
From Coq Require Import Reals Lra.
From Verif Require Import GeoModel HazardModel QTModel TransfModel HpgModel CdeModel CdeSpec GeoSpec PlaceSpec ShapeSpec LbfModel LbfSpec HistPackSpec AgainModel AgainSpec.
Import ListNotations.
Local Open Scope nat_scope.

(** *** growing and shrinking *)
Section Gr.
  Context {F D : Type}.
  Local Notation layout := (layout F D).
  Lemma grown_refl : forall ls : list layout, grown ls ls.
  Proof. intros ls j l H. exists l. split; [exact H|]. split; [reflexivity|exists []; apply Permutation_refl]. Qed.
  Lemma grown_trans : forall a b c : list layout, grown a b -> grown b c -> grown a c.
  Proof.
    intros a b c H1 H2 j l H. destruct (H1 j l H) as (l1 & A & B & x & C). destruct (H2 j l1 A) as (l2 & A2 & B2 & y & C2).
    exists l2. split; [exact A2|]. split; [congruence|]. exists (y ++ x). rewrite C2, C, app_assoc. reflexivity.
  Qed.
  Lemma content_grown : forall a b : list layout, map content b = map content a -> grown a b.
  Proof.
    intros a b E j l H. apply (map_nth_error content) in H. rewrite <- E, nth_error_map in H. destruct (nth_error b j) as [l'|] eqn:El; [|discriminate].
    cbn in H. injection H as _ Eb Ei. exists l'. split; [reflexivity|]. split; [exact Eb|]. exists []. unfold placed. rewrite Ei. apply Permutation_refl.
  Qed.
  Lemma items_placed : forall ls : list layout, items_in ls = flat_map (fun l => map fst (placed l)) ls.
  Proof. induction ls as [|l ls IH]; cbn; [reflexivity|]. unfold items_in in *. rewrite IH. unfold placed. rewrite map_map. reflexivity. Qed.
  Lemma grown_items : forall a b : list layout, grown a b -> exists more, Permutation (items_in b) (more ++ items_in a).
  Proof.
    intros a b. rewrite !items_placed. revert b. induction a as [|l a IH]; intros b H.
    - exists (flat_map (fun l => map fst (placed l)) b). cbn. rewrite app_nil_r. reflexivity.
    - destruct (H 0 l eq_refl) as (l' & E & _ & m & P). destruct b as [|l1 b]; [discriminate|]. cbn in E. injection E as ->.
      destruct (IH b) as (more & Q); [intros j x Hx; exact (H (S j) x Hx)|].
      exists (map fst m ++ more). cbn [flat_map]. rewrite Q, P, map_app, <- !app_assoc. apply Permutation_app_head.
      rewrite !app_assoc. apply Permutation_app_tail, Permutation_app_comm.
  Qed.
  Lemma sol_content_items : forall (s : solution F D) (ls : list layout), map snap_content (so_layouts s) = map content ls -> sol_items s = items_in ls.
  Proof.
    intros s ls. rewrite items_placed. unfold sol_items. generalize (so_layouts s). intros sn. revert ls. induction sn as [|x sn IH]; intros [|l ls] H; try discriminate H; [reflexivity|].
    cbn in H. injection H as _ _ E H. cbn. rewrite (IH ls H). unfold snap_placed, placed. rewrite E. reflexivity.
  Qed.
  Lemma shrunk_refl : forall ls : list layout, shrunk ls ls.
  Proof. intros ls l H. exists l. split; [exact H|]. split; [reflexivity|exists []; apply Permutation_refl]. Qed.
  Lemma shrunk_trans : forall a b c : list layout, shrunk a b -> shrunk b c -> shrunk a c.
  Proof.
    intros a b c H1 H2 l H. destruct (H2 l H) as (l1 & A & B & x & C). destruct (H1 l1 A) as (l2 & A2 & B2 & y & C2).
    exists l2. split; [exact A2|]. split; [congruence|]. exists (y ++ x). rewrite C2, C, app_assoc. reflexivity.
  Qed.
End Gr.

Section A.
  Variable M : R.
  #[local] Instance NAG : Num R := RNumT Reqb M.
  #[local] Existing Instance RTrig.
  Context {ED : EqD (dtransf R)} {BS : BSearch} {G : Type} {RG : Rng R G} {X : Extra R}.
  Local Notation dtransf := (dtransf R).
  Local Notation layout := (layout R dtransf).
  Local Notation popt := (popt dtransf).
  Local Notation bp := (bp R dtransf).
  Local Notation solution := (solution R dtransf).

  (** what is missing may become less, but not less than nothing *)
  Definition fair (p p' : bp) : Prop := forall i x x', nth_error (bp_missing p) i = Some x -> nth_error (bp_missing p') i = Some x' -> (Z.min x 0 <= x')%Z.
  Definition same_len (p p' : bp) : Prop := length (bp_missing p') = length (bp_missing p).
  Lemma fair_refl : forall p, fair p p.
  Proof. intros p i x x' A B. rewrite A in B. injection B as <-. lia. Qed.
  Lemma fair_trans : forall p q r, same_len p q -> fair p q -> fair q r -> fair p r.
  Proof.
    intros p q r L A B i x x' Hx Hx'. destruct (nth_error (bp_missing q) i) as [y|] eqn:E.
    - specialize (A i x y Hx E). specialize (B i y x' E Hx'). lia.
    - apply nth_error_None in E. assert (nth_error (bp_missing p) i <> None) as K by congruence. apply nth_error_Some in K. unfold same_len in L. lia.
  Qed.
  Lemma place_fair : forall (p p' : bp) i x, nth_error (bp_missing p) i = Some x -> (0 < x)%Z ->
    bp_missing p' = vset i (x - 1)%Z (bp_missing p) -> fair p p' /\ same_len p p'.
  Proof.
    intros p p' i x Ex Px E. split; [|unfold same_len; rewrite E; apply vset_length].
    intros j y y' Ey Ey'. rewrite E in Ey'. destruct (Nat.eq_dec i j) as [<-|Hn].
    - assert (L : i < length (bp_missing p)) by (apply nth_error_Some; congruence). rewrite nth_error_vset_eq in Ey' by exact L. injection Ey' as <-. rewrite Ex in Ey. injection Ey as <-. lia.
    - rewrite nth_error_vset_neq in Ey' by exact Hn. rewrite Ey in Ey'. injection Ey' as <-. lia.
  Qed.

  Section H.
  Variable inst : bpinst R dtransf.
  Hypothesis Ids : ids_ok inst.
  Variable h : list solution.
  Lemma fill_ok : forall ovf cfg i it q, nth_error (bi_items inst) i = Some (it, q) -> forall fuel p (g : G) ptr p' g' ptr',
    BInv inst p h ->  bp_fill fuel cfg i it (p, g, ptr) = Ok (p', g', ptr') ->
    exists ops, rfold (bstep ovf) (place_ops ops) (p, h) = Ok (p', h) /\ all_checked p ops /\ BInv inst p' h /\ fair p p' /\ same_len p p'.
  Proof.
    intros ovf cfg i it q Hi. induction fuel as [|fuel IH]; intros p g ptr p' g' ptr' I H; cbn [bp_fill] in H;
      apply rbind_ok in H as (m & Em & H); apply expect_ok in Em; destruct (Z.ltb_spec 0 m) as [Pm|Pm]; try discriminate.
    - injection H as <- <- <-. exists []. split; [reflexivity|]. split; [exact Logic.I|]. split; [exact I|]. split; [apply fair_refl|reflexivity].
    - apply rbind_ok in H as (ls & Els & H). apply rbind_ok in H as ([o g1] & Ef & H). apply (find_placement_ok M) in Ef. destruct o as [o|].
      + apply rbind_ok in H as ([r p1] & Ep & H). destruct Ef as (li & l & irr & Hin & Tl & Eli & Eit & Ps & Tn).
        apply (proj1 (candidates_ok p ls Els)) in Hin. pose proof (proj1 Ids _ _ _ Hi) as Eid.
        assert (I1 : BInv inst p1 h) by (eapply place_inv; eassumption).
        destruct (place_missing M _ _ _ _ _ _ _ I Ep) as (x & Ex & Em1). rewrite Eit, Eid in Ex, Em1. rewrite Em in Ex. injection Ex as <-.
        destruct (place_fair _ _ _ _ Em Pm Em1) as (Nf & Nl). destruct (IH _ _ _ _ _ _ I1 H) as (ops & R1 & C1 & I2 & N2 & N3).
        exists ((o, ptr) :: ops). split; [|split; [|split; [exact I2|split; [eapply fair_trans; eassumption|unfold same_len in *; congruence]]]].
        * cbn [place_ops map rfold fst snd bstep]. rewrite Ep. cbn [rbind]. exact R1.
        * cbn [all_checked]. split.
          -- exists l, it, q, irr. rewrite Eli. split; [exact Hin|]. rewrite (b_inst _ _ _ I), Eit, Eid. repeat (split; [assumption|]). exact Tn.
          -- intros k p2 E2. rewrite Ep in E2. injection E2 as <- <-. exact C1.
      + injection H as <- <- <-. exists []. split; [reflexivity|]. split; [exact Logic.I|]. split; [exact I|]. split; [apply fair_refl|reflexivity].
    - injection H as <- <- <-. exists []. split; [reflexivity|]. split; [exact Logic.I|]. split; [exact I|]. split; [apply fair_refl|reflexivity].
  Qed.
  Lemma ops_app : forall ovf ops1 ops2 (p p1 p2 : bp), rfold (bstep ovf) (place_ops ops1) (p, h) = Ok (p1, h) -> all_checked p ops1 ->
    rfold (bstep ovf) (place_ops ops2) (p1, h) = Ok (p2, h) -> all_checked p1 ops2 ->
    rfold (bstep ovf) (place_ops (ops1 ++ ops2)) (p, h) = Ok (p2, h) /\ all_checked p (ops1 ++ ops2).
  Proof.
    intros ovf. induction ops1 as [|[o ptr] ops1 IH]; intros ops2 p p1 p2 R1 C1 R2 C2.
    - cbn in R1. injection R1 as <-. auto.
    - cbn [place_ops map rfold fst snd] in R1. apply rbind_ok in R1 as ([px hx] & E & R1). pose proof E as Est. cbn [bstep] in E.
      apply rbind_ok in E as ([r py] & E & Z). injection Z as -> <-. destruct C1 as (C1 & C1').
      destruct (IH ops2 px p1 p2 R1 (C1' _ _ E) R2 C2) as (A & B). split.
      + cbn [app place_ops map rfold fst snd]. rewrite Est. exact A.
      + cbn [app all_checked]. split; [exact C1|]. intros k p' E'. rewrite E in E'. injection E' as <- <-. exact B.
  Qed.
  Lemma split_checked : forall ovf ops1 ops2 (p p1 : bp), rfold (bstep ovf) (place_ops ops1) (p, h) = Ok (p1, h) -> all_checked p (ops1 ++ ops2) ->
    all_checked p ops1 /\ all_checked p1 ops2.
  Proof.
    intros ovf. induction ops1 as [|[o ptr] ops1 IH]; intros ops2 p p1 R1 C.
    - cbn in R1. injection R1 as <-. split; [exact Logic.I|exact C].
    - cbn [place_ops map rfold fst snd] in R1. apply rbind_ok in R1 as ([px hx] & E & R1). cbn [bstep] in E.
      apply rbind_ok in E as ([r py] & E & Z). injection Z as -> <-. cbn [app all_checked] in C. destruct C as (C1 & C2).
      destruct (IH ops2 px p1 R1 (C2 _ _ E)) as (A & B). split; [|exact B]. cbn [all_checked]. split; [exact C1|].
      intros k p' E'. rewrite E in E'. injection E' as <- <-. exact A.
  Qed.
  Lemma fill_items_ok : forall ovf cfg is p (g : G) ptr p' g' ptr', BInv inst p h -> 
    rfold (bp_fill_item cfg) is (p, g, ptr) = Ok (p', g', ptr') ->
    exists ops, rfold (bstep ovf) (place_ops ops) (p, h) = Ok (p', h) /\ all_checked p ops /\ BInv inst p' h /\ fair p p' /\ same_len p p'.
  Proof.
    intros ovf cfg. induction is as [|i is IH]; intros p g ptr p' g' ptr' I H; cbn [rfold] in H.
    - injection H as <- <- <-. exists []. split; [reflexivity|]. split; [exact Logic.I|]. split; [exact I|]. split; [apply fair_refl|reflexivity].
    - apply rbind_ok in H as ([[p1 g1] ptr1] & E & H). unfold bp_fill_item in E. cbn [fst] in E. apply rbind_ok in E as (it & Eit & E).
      apply rbind_ok in E as (m & _ & E). rewrite (b_inst _ _ _ I) in Eit. apply item_of_inv in Eit as (q & Eit).
      destruct (fill_ok ovf cfg i it q Eit _ _ _ _ _ _ _ I E) as (ops1 & R1 & C1 & I1 & N1 & M1).
      destruct (IH _ _ _ _ _ _ I1 H) as (ops2 & R2 & C2 & I2 & N2 & M2).
      destruct (ops_app _ _ _ _ _ _ R1 C1 R2 C2) as (A & B). exists (ops1 ++ ops2). split; [exact A|]. split; [exact B|]. split; [exact I2|].
      split; [eapply fair_trans; eassumption|unfold same_len in *; congruence].
  Qed.
  Lemma fill_gives_up : forall cfg i it q, nth_error (bi_items inst) i = Some (it, q) -> forall fuel p (g : G) ptr p' g' ptr' m,
    BInv inst p h -> bp_fill fuel cfg i it (p, g, ptr) = Ok (p', g', ptr') -> nth_error (bp_missing p') i = Some m -> (0 < m)%Z -> no_room p' it cfg.
  Proof.
    intros cfg i it q Hi. induction fuel as [|fuel IH]; intros p g ptr p' g' ptr' m I H Em' Pm'; cbn [bp_fill] in H;
      apply rbind_ok in H as (m0 & Em & H); apply expect_ok in Em; destruct (Z.ltb_spec 0 m0) as [Pm|Pm]; try discriminate.
    - injection H as <- <- <-. rewrite Em in Em'. injection Em' as <-. lia.
    - apply rbind_ok in H as (ls & Els & H). apply rbind_ok in H as ([o g1] & Ef & H). apply (find_placement_ok M) in Ef. destruct o as [o|].
      + apply rbind_ok in H as ([r p1] & Ep & H). eapply IH; [|exact H|exact Em'|exact Pm']. eapply place_inv; eassumption.
      + injection H as <- <- <-. intros li l Tg St. rewrite Forall_forall in Ef. exact (Ef (li, l) (proj2 (candidates_ok p ls Els) li l Tg St)).
    - injection H as <- <- <-. rewrite Em in Em'. injection Em' as <-. lia.
  Qed.
  Lemma fill_others : forall cfg i it q j, nth_error (bi_items inst) i = Some (it, q) -> j <> i -> forall fuel p (g : G) ptr p' g' ptr',
    BInv inst p h -> bp_fill fuel cfg i it (p, g, ptr) = Ok (p', g', ptr') -> nth_error (bp_missing p') j = nth_error (bp_missing p) j.
  Proof.
    intros cfg i it q j Hi Hj. induction fuel as [|fuel IH]; intros p g ptr p' g' ptr' I H; cbn [bp_fill] in H;
      apply rbind_ok in H as (m0 & Em & H); apply expect_ok in Em; destruct (Z.ltb_spec 0 m0) as [Pm|Pm]; try discriminate; try (injection H as <- <- <-; reflexivity).
    apply rbind_ok in H as (ls & Els & H). apply rbind_ok in H as ([o g1] & Ef & H). apply (find_placement_ok M) in Ef. destruct o as [o|]; [|injection H as <- <- <-; reflexivity].
    apply rbind_ok in H as ([r p1] & Ep & H). destruct Ef as (li & l & irr & _ & _ & _ & Eit & _).
    destruct (place_missing M _ _ _ _ _ _ _ I Ep) as (x & _ & Em1). rewrite Eit, (proj1 Ids _ _ _ Hi) in Em1.
    rewrite (IH _ _ _ _ _ _ (place_inv _ _ _ _ _ _ _ Ids I Ep) H), Em1. apply nth_error_vset_neq. congruence.
  Qed.
  Lemma fills_give_up : forall ovf cfg i it q, nth_error (bi_items inst) i = Some (it, q) -> forall is p (g : G) ptr p' g' ptr' m,
    NoDup is -> In i is -> BInv inst p h ->  rfold (bp_fill_item cfg) is (p, g, ptr) = Ok (p', g', ptr') ->
    nth_error (bp_missing p') i = Some m -> (0 < m)%Z ->
    exists ops1 ops2 p1, rfold (bstep ovf) (place_ops ops1) (p, h) = Ok (p1, h) /\ rfold (bstep ovf) (place_ops ops2) (p1, h) = Ok (p', h) /\
      all_checked p (ops1 ++ ops2) /\ no_room p1 it cfg.
  Proof.
    intros ovf cfg i it q Hi. induction is as [|j is IH]; intros p g ptr p' g' ptr' m Nd Hin I H Em Pm; [destruct Hin|].
    inversion Nd as [|? ? Nj Nd']; subst. pose proof H as Hall. cbn [rfold] in H. apply rbind_ok in H as ([[p1 g1] ptr1] & E & H).
    assert (J1 : BInv inst p1 h /\ exists ops, rfold (bstep ovf) (place_ops ops) (p, h) = Ok (p1, h) /\ all_checked p ops).
    { assert (Hone : rfold (bp_fill_item cfg) [j] (p, g, ptr) = Ok (p1, g1, ptr1)) by (cbn [rfold]; rewrite E; reflexivity).
      destruct (fill_items_ok ovf _ _ _ _ _ _ _ _ I Hone) as (ops & A & B & C & _). split; [exact C|]. exists ops. auto. }
    destruct J1 as (I1 & ops0 & R0 & C0). destruct (Nat.eq_dec j i) as [->|Hn].
    - destruct (fill_items_ok ovf _ _ _ _ _ _ _ _ I1 H) as (ops2 & R2 & C2 & _ & _).
      exists ops0, ops2, p1. split; [exact R0|]. split; [exact R2|]. split; [exact (proj2 (ops_app _ _ _ _ _ _ R0 C0 R2 C2))|].
      unfold bp_fill_item in E. cbn [fst] in E. apply rbind_ok in E as (it0 & Eit & E). rewrite (b_inst _ _ _ I) in Eit. apply item_of_inv in Eit as (q0 & Eit).
      rewrite Hi in Eit. injection Eit as <- <-. apply rbind_ok in E as (m0 & _ & E).
      apply (fill_gives_up cfg i it q Hi _ _ _ _ _ _ _ m I E); [|exact Pm]. rewrite <- Em. symmetry.
      (* later items do not touch the count of this one *)
      clear -H I1 Nj Ids. revert p1 g1 ptr1 H I1. induction is as [|k is IH]; intros p1 g1 ptr1 H I1; cbn [rfold] in H; [injection H as <- <- <-; reflexivity|].
      apply rbind_ok in H as ([[p2 g2] ptr2] & E & H). pose proof E as E0. unfold bp_fill_item in E. cbn [fst] in E. apply rbind_ok in E as (it0 & Eit & E).
      rewrite (b_inst _ _ _ I1) in Eit. apply item_of_inv in Eit as (q0 & Eit). apply rbind_ok in E as (m0 & _ & E).
      destruct (fill_ok false cfg k it0 q0 Eit _ _ _ _ _ _ _ I1 E) as (_ & _ & _ & I2 & _).
      rewrite (IH (fun X => Nj (or_intror X)) p2 g2 ptr2 H I2). eapply fill_others; [exact Eit| |exact I1|exact E]. intros ->. apply Nj. left. reflexivity.
    - destruct Hin as [->|Hin]; [congruence|]. destruct (IH _ _ _ _ _ _ _ Nd' Hin I1 H Em Pm) as (ops1 & ops2 & px & A & B & C & D).
      destruct (split_checked ovf ops1 ops2 _ _ A C) as (C1 & C2). exists (ops0 ++ ops1), ops2, px.
      destruct (ops_app _ _ _ _ _ _ R0 C0 A C1) as (A' & C'). split; [exact A'|]. split; [exact B|]. split; [|exact D].
      exact (proj2 (ops_app _ _ _ _ _ _ A' C' B C2)).
  Qed.

  Lemma all_bchecked_h : forall ovf ops (p : bp), all_checked p ops -> bchecked ovf (p, h) (place_ops ops).
  Proof.
    intros ovf. induction ops as [|[o ptr] ops IH]; intros p C; [exact Logic.I|]. destruct C as (C1 & C2). cbn [place_ops map bchecked fst snd]. split; [exact C1|].
    cbn [bstep]. destruct (bp_place p o ptr) as [[k p']|]; cbn [rbind]; [|exact Logic.I]. apply IH. exact (C2 k p' eq_refl).
  Qed.
  End H.

  Hypothesis BSok : bsearch_ok BS.
  Lemma bchecked_app : forall ovf a b s, bchecked ovf s a -> (forall s', rfold (bstep ovf) a s = Ok s' -> bchecked ovf s' b) -> bchecked ovf s (a ++ b).
  Proof.
    intros ovf. induction a as [|o a IH]; intros b s C K; cbn [app]; [apply K; reflexivity|].
    cbn [bchecked] in *. destruct C as (C1 & C2). split; [exact C1|]. cbn [rfold] in K. destruct (bstep ovf s o) as [s1|]; [|exact Logic.I].
    cbn [rbind] in K. apply IH; assumption.
  Qed.
  Lemma place_grown : forall inst h (p : bp) o ptr r p', ids_ok inst -> HPI M inst p h -> checked p o -> bp_place p o ptr = Ok (r, p') -> grown (bp_layouts p) (bp_layouts p').
  Proof.
    intros inst h p o ptr r p' Ids I C E. pose proof (hp_inv _ _ _ _ I) as Bi. pose proof (hp_mi _ _ _ _ I) as Mi.
    destruct C as (l & it & q & irr & Tg & Hi & _). rewrite (b_inst _ _ _ Bi) in Hi.
    assert (Sm : sm_ok (ly_items l)).
    { destruct (po_layout o) as [j|t]; cbn [target] in Tg.
      - apply nth_error_In in Tg. pose proof (m_layouts _ _ _ Mi) as L. rewrite Forall_forall in L. exact (proj1 (proj1 (proj2 (L l Tg)))).
      - rewrite (b_tmpl _ _ _ Bi) in Tg. apply nth_template in Tg as (b & qb & Hb & ->). cbn. apply new_ok. }
    destruct (place_layouts M inst Ids p h o ptr r p' l it q Bi E Tg Hi Sm) as (l' & Eb & P & K).
    intros j x Hx. destruct (po_layout o) as [j0|t]; rewrite K.
    - cbn [target] in Tg. destruct (Nat.eq_dec j0 j) as [->|Hn].
      + rewrite Hx in Tg. injection Tg as ->. exists l'. split; [apply nth_error_vset_eq; apply nth_error_Some; congruence|]. split; [exact Eb|].
        exists [(po_item o, po_dt o)]. exact P.
      + exists x. split; [rewrite nth_error_vset_neq by exact Hn; exact Hx|]. split; [reflexivity|exists []; apply Permutation_refl].
    - exists x. split; [rewrite nth_error_app1; [exact Hx|apply nth_error_Some; congruence]|]. split; [reflexivity|exists []; apply Permutation_refl].
  Qed.
  Lemma places_grown : forall inst ovf h ops (p p' : bp), ids_ok inst -> fine_items (bi_items inst) -> fine_bins (bi_bins inst) -> HPI M inst p h ->
    all_checked p ops -> rfold (bstep ovf) (place_ops ops) (p, h) = Ok (p', h) -> HPI M inst p' h /\ grown (bp_layouts p) (bp_layouts p').
  Proof.
    intros inst ovf h. induction ops as [|[o ptr] ops IH]; intros p p' Ids Fi Fb I C H; cbn [place_ops map rfold fst snd] in H.
    - injection H as <-. split; [exact I|apply grown_refl].
    - apply rbind_ok in H as ([p1 h1] & E & H). destruct C as (C1 & C2). destruct (step_HPI M BSok _ _ _ _ (BPlace o ptr) _ _ Ids Fi Fb I C1 E) as (I1 & _).
      cbn [bstep] in E. apply rbind_ok in E as ([r q1] & E & Z). injection Z as -> <-.
      destruct (IH _ _ Ids Fi Fb I1 (C2 _ _ E) H) as (I2 & G2). split; [exact I2|]. eapply grown_trans; [eapply place_grown; eassumption|exact G2].
  Qed.

  (** what solving does, stated from the state it starts in *)
  Lemma solve_steps : forall inst ovf cfg (p : bp) h (g : G) ptr p' s g' ptr', ids_ok inst -> fine_items (bi_items inst) -> fine_bins (bi_bins inst) -> HPI M inst p h ->
    solve_bp cfg p g ptr = Ok (p', s, g', ptr') ->
    exists ops', bchecked ovf (p, h) ops' /\ rfold (bstep ovf) ops' (p, h) = Ok (p', h ++ [s]) /\
      grown (bp_layouts p) (bp_layouts p') /\ map snap_content (so_layouts s) = map content (bp_layouts p') /\ fair p p' /\
      forall i it q m, nth_error (bi_items inst) i = Some (it, q) -> nth_error (bp_missing p') i = Some m -> (0 < m)%Z ->
        exists ops1 p1, bchecked ovf (p, h) ops1 /\ rfold (bstep ovf) ops1 (p, h) = Ok (p1, h) /\
          grown (bp_layouts p) (bp_layouts p1) /\ grown (bp_layouts p1) (bp_layouts p') /\ no_room p1 it cfg.
  Proof.
    intros inst ovf cfg p h g ptr p' s g' ptr' Ids Fi Fb I H. pose proof (hp_inv _ _ _ _ I) as Bi. unfold solve_bp in H.
    apply rbind_ok in H as (order & Eo & H). rewrite (b_inst _ _ _ Bi) in Eo. apply (order_perm M) in Eo.
    apply rbind_ok in H as ([[p1 g1] ptr1] & Ef & H). apply rbind_ok in H as ([s1 p2] & Ec & H). injection H as -> -> -> ->.
    destruct (fill_items_ok inst Ids h ovf cfg order p g ptr p1 g' ptr' Bi Ef) as (ops & R1 & C1 & I1 & Fr & _).
    destruct (places_grown inst ovf h ops p p1 Ids Fi Fb I C1 R1) as (_ & G1).
    destruct (create_content _ _ _ None _ _ I1 Logic.I Ec) as (sl & E1 & E2 & E3 & E4 & _).
    assert (G2 : grown (bp_layouts p1) (bp_layouts p')) by (rewrite E2; apply content_grown; exact E3).
    assert (Em : bp_missing p' = bp_missing p1).
    { clear -Ec. unfold bp_create in Ec. apply rbind_ok in Ec as (pl & _ & Ec). apply rbind_ok in Ec as ([] & _ & Ec). apply rbind_ok in Ec as (sl & _ & Ec). injection Ec as _ <-. reflexivity. }
    exists (place_ops ops ++ [BCreate None]). split.
    { apply bchecked_app; [apply all_bchecked_h; exact C1|]. intros s' _. split; [exact Logic.I|]. destruct (bstep ovf s' (BCreate None)); exact Logic.I. }
    split; [rewrite rfold_app, R1; cbn [rbind rfold bstep]; rewrite Ec; reflexivity|].
    split; [eapply grown_trans; eassumption|]. split; [rewrite <- E1, E4, E2, E3; reflexivity|].
    split; [intros i x x' Hx Hx'; rewrite Em in Hx'; exact (Fr i x x' Hx Hx')|].
    intros i it q m Hi Hm Pm. rewrite Em in Hm.
    assert (Nd : NoDup order) by (eapply Permutation_NoDup; [symmetry; exact Eo|apply seq_NoDup]).
    assert (Hin : In i order).
    { apply (Permutation_in _ (Permutation_sym Eo)). apply in_seq. split; [lia|]. cbn. apply nth_error_Some. congruence. }
    destruct (fills_give_up inst Ids h ovf cfg i it q Hi order p g ptr p1 g' ptr' m Nd Hin Bi Ef Hm Pm) as (a & b & px & Ra & Rb & Cab & Nr).
    destruct (split_checked h ovf a b p px Ra Cab) as (Ca & Cb).
    destruct (places_grown inst ovf h a p px Ids Fi Fb I Ca Ra) as (Ix & Ga). destruct (places_grown inst ovf h b px p1 Ids Fi Fb Ix Cb Rb) as (_ & Gb).
    exists (place_ops a), px. split; [apply all_bchecked_h; exact Ca|]. split; [exact Ra|]. split; [exact Ga|]. split; [eapply grown_trans; eassumption|exact Nr].
  Qed.

  Theorem solve_any_bp : forall items bins inst ovf cfg ops (p : bp) h (g : G) ptr p' s g' ptr', bpinst_new items bins = Ok inst -> Forall (fun b => good_bin (fst b)) bins ->
    fine_items items -> fine_bins bins -> bchecked ovf (bp_new inst, []) ops -> bp_run ovf inst ops = Ok (p, h) ->
    solve_bp cfg p g ptr = Ok (p', s, g', ptr') ->
    (exists ops', bchecked ovf (bp_new inst, []) (ops ++ ops') /\ bp_run ovf inst (ops ++ ops') = Ok (p', h ++ [s])) /\
    Forall (fun l => In (ly_bin l) (map fst bins) /\ packed items (ly_bin l) (placed l)) (bp_layouts p') /\
    map snap_content (so_layouts s) = map content (bp_layouts p') /\
    grown (bp_layouts p) (bp_layouts p') /\
    forall i it q, nth_error items i = Some (it, q) ->
      copies i (bp_layouts p') <= Nat.max q (copies i (bp_layouts p)) /\
      (copies i (bp_layouts p') < q ->
        exists ops1 p1, bchecked ovf (bp_new inst, []) (ops ++ ops1) /\ bp_run ovf inst (ops ++ ops1) = Ok (p1, h) /\
          grown (bp_layouts p) (bp_layouts p1) /\ grown (bp_layouts p1) (bp_layouts p') /\ no_room p1 it cfg).
  Proof.
    intros items bins inst ovf cfg ops p h g ptr p' s g' ptr' Hn Gb Fi Fb C R0 H.
    destruct (bin_history M BSok _ _ _ _ _ _ _ Hn Gb Fi Fb C R0) as (Ei & Eb & Ids & I & _). rewrite <- Ei in Fi. rewrite <- Eb in Fb.
    destruct (solve_steps inst ovf cfg p h g ptr p' s g' ptr' Ids Fi Fb I H) as (ops' & C' & R' & Gr & Es & Fr & Lo). rewrite Ei in Fi. rewrite Eb in Fb.
    assert (CC : forall o, bchecked ovf (p, h) o -> bchecked ovf (bp_new inst, []) (ops ++ o)).
    { intros o Co. apply bchecked_app; [exact C|]. intros s' E'. unfold bp_run in R0. rewrite R0 in E'. injection E' as <-. exact Co. }
    assert (RR : forall o r, rfold (bstep ovf) o (p, h) = r -> bp_run ovf inst (ops ++ o) = r).
    { intros o r Ro. unfold bp_run in *. rewrite rfold_app, R0. exact Ro. }
    split; [exists ops'; split; [apply CC; exact C'|apply RR; exact R']|].
    split; [exact (proj1 (bp_history_packs M BSok _ _ _ _ _ _ _ Hn Gb Fi Fb (CC _ C') (RR _ _ R')))|]. split; [exact Es|]. split; [exact Gr|].
    intros i it q Hi. pose proof (bp_demand _ _ _ _ _ _ _ _ _ _ Hn R0 Hi) as D0. pose proof (bp_demand _ _ _ _ _ _ _ _ _ _ Hn (RR _ _ R') Hi) as D1.
    split; [specialize (Fr i _ _ D0 D1); lia|]. intros Lt. rewrite <- Ei in Hi. destruct (Lo i it q _ Hi D1 ltac:(lia)) as (o1 & p1 & A1 & A2 & A3).
    exists o1, p1. split; [apply CC; exact A1|]. split; [apply RR; exact A2|exact A3].
  Qed.

  (** *** taking items out of bins *)
  Lemma some_key_in : forall (l : layout) (g : G) k g', some_key l g = (Some k, g') -> In k (map fst (sm_iter (ly_items l))).
  Proof.
    intros l g k g' H. unfold some_key in H. destruct (map fst (sm_iter (ly_items l))) as [|a ks] eqn:E; [discriminate|].
    destruct (g_index g (length (a :: ks))) as [i g1]. injection H as H _. exact (nth_error_In _ _ H).
  Qed.
  Lemma some_key_none : forall (l : layout) (g : G) g', some_key l g = (None, g') -> sm_values (ly_items l) = [].
  Proof.
    intros l g g' H. unfold some_key in H. unfold sm_values. destruct (sm_iter (ly_items l)) as [|a ks] eqn:E; [reflexivity|]. cbn [map] in H.
    set (n := length (fst a :: map fst ks)) in *.
    destruct (g_index g n) as [i g1]. injection H as H _. apply nth_error_None in H.
    assert (K : i mod n < n) by (apply Nat.mod_upper_bound; discriminate). exact (False_ind _ (Nat.lt_irrefl _ (Nat.lt_le_trans _ _ _ K H))).
  Qed.
  Lemma items_len : forall ls : list layout, length (items_in ls) = list_sum (map (fun l => length (sm_values (ly_items l))) ls).
  Proof. induction ls as [|l ls IH]; cbn; [reflexivity|]. unfold items_in in *. rewrite app_length, map_length, IH. reflexivity. Qed.
  Lemma remove_shrunk : forall inst h (p : bp) j k b o p', MI inst p h -> bp_remove p (Real j) k b = Ok (o, p') ->
    shrunk (bp_layouts p) (bp_layouts p') /\ exists i, Permutation (items_in (bp_layouts p)) (i :: items_in (bp_layouts p')).
  Proof.
    intros inst h p j k b o p' Mi H. unfold bp_remove in H. apply rbind_ok in H as (l & El & H). apply expect_ok in El.
    apply rbind_ok in H as ([pi l'] & Er & H). apply rbind_ok in H as (p2 & E2 & H). apply rbind_ok in H as (m & _ & H). injection H as <- <-. cbn [bp_layouts].
    pose proof (nth_error_In _ _ El) as Hl. pose proof (m_layouts _ _ _ Mi) as Ll. rewrite Forall_forall in Ll. pose proof (proj1 (proj1 (proj2 (Ll l Hl)))) as Sm.
    apply remove_content in Er as (_ & Eb & Er). pose proof (proj1 (remove_spec _ _ _ _ Sm Er)) as Sm'. apply remove_perm in Er; [|exact Sm].
    destruct (vset_split j l l' _ El) as (a & c & Ea & Ec & La).
    assert (K : bp_layouts p2 = a ++ l' :: c \/ bp_layouts p2 = a ++ c /\ sm_values (ly_items l') = []).
    { destruct (layout_is_empty l') eqn:Em; [right|left; injection E2 as <-; cbn [bp_layouts]; exact Ec].
      split.
      - unfold bp_deregister_layout in E2. apply rbind_ok in E2 as ([x ls] & E & E2). apply expect_ok in E. cbn [bp_layouts] in E. rewrite Ec in E.
        apply vremove_split in E as (a' & c' & Es & -> & La'). apply rbind_ok in E2 as (bins & _ & E2). apply rbind_ok in E2 as (mm & _ & E2). injection E2 as <-. cbn [bp_layouts].
        assert (a' = a /\ c' = c) as (-> & ->); [|reflexivity]. clear -Es La La'. rewrite <- La' in La. clear La'. revert a' Es La.
        induction a as [|x0 a IH]; intros [|y a'] Es La; try discriminate La; cbn in Es; [injection Es as _ <-; auto|]. injection Es as <- Es. injection La as La.
        destruct (IH a' Es La) as (-> & ->). auto.
      - apply (proj1 (empty_spec _ Sm') Em). }
    assert (Inc : exists gone, Permutation (placed l) (gone ++ placed l')).
    { exists [(pi_item pi, pi_dt pi)]. unfold placed. apply (Permutation_map (fun p : pitem R dtransf => (pi_item p, pi_dt p))) in Er. exact Er. }
    pose proof (Permutation_length Er) as Len. cbn [length] in Len. split.
    - rewrite Ea. intros x Hx. assert (Cs : In x (a ++ c) \/ x = l').
      { destruct K as [K|(K & _)]; rewrite K in Hx; [|auto]. apply in_app_iff in Hx as [Hx|[<-|Hx]]; [left; apply in_app_iff; auto|auto|left; apply in_app_iff; auto]. }
      destruct Cs as [Cs| ->]; [exists x; split; [apply in_app_iff in Cs as [Cs|Cs]; apply in_app_iff; [left|right; right]; exact Cs|split; [reflexivity|exists []; apply Permutation_refl]]|].
      exists l. split; [apply in_app_iff; right; left; reflexivity|]. split; assumption.
    - exists (pi_item pi). rewrite Ea. apply (Permutation_map (@pi_item R dtransf)) in Er. cbn [map] in Er. unfold items_in in *.
      destruct K as [K|(K & Z)]; rewrite K, !flat_map_app; cbn [flat_map]; rewrite Er; cbn [app]; [rewrite <- Permutation_middle; reflexivity|].
      rewrite Z. cbn. rewrite <- Permutation_middle. reflexivity.
  Qed.

  Lemma drop_steps : forall inst ovf n (p : bp) h (g : G) p' g', ids_ok inst -> fine_items (bi_items inst) -> fine_bins (bi_bins inst) -> HPI M inst p h ->
    drop_bp n p g = Ok (p', g') ->
    exists ks, length ks = n /\ rfold (bstep ovf) (map (fun x => BRemove (Real (fst x)) (snd x) false) ks) (p, h) = Ok (p', h) /\
      HPI M inst p' h /\ shrunk (bp_layouts p) (bp_layouts p') /\ exists out, length out = n /\ Permutation (items_in (bp_layouts p)) (out ++ items_in (bp_layouts p')).
  Proof.
    intros inst ovf. induction n as [|n IH]; intros p h g p' g' Ids Fi Fb I H; cbn [drop_bp] in H.
    - injection H as <- _. exists []. split; [reflexivity|]. split; [reflexivity|]. split; [exact I|]. split; [apply shrunk_refl|]. exists []. split; [reflexivity|apply Permutation_refl].
    - destruct (bp_layouts p) as [|l0 ls0] eqn:El; [discriminate|]. rewrite <- El in *. destruct (g_index g (length (bp_layouts p))) as [j g1].
      set (j' := j mod length (bp_layouts p)) in *. apply rbind_ok in H as (l & Ej & H). apply expect_ok in Ej.
      destruct (some_key l g1) as [k g2] eqn:Ek. destruct k as [k|].
      + apply rbind_ok in H as ([o p1] & Er & H). destruct (remove_shrunk _ _ _ _ _ _ _ _ (hp_mi _ _ _ _ I) Er) as (S1 & i1 & L1).
        assert (E1 : bstep ovf (p, h) (BRemove (Real j') k false) = Ok (p1, h)) by (cbn [bstep]; rewrite Er; reflexivity).
        destruct (step_HPI M BSok _ _ _ _ (BRemove (Real j') k false) _ _ Ids Fi Fb I Logic.I E1) as (I1 & _).
        destruct (IH _ _ _ _ _ Ids Fi Fb I1 H) as (ks & Lk & Rk & I2 & S2 & out & Lo & L2). exists ((j', k) :: ks).
        split; [cbn; lia|]. split; [cbn [map fst snd rfold]; rewrite E1; exact Rk|]. split; [exact I2|]. split; [eapply shrunk_trans; eassumption|].
        exists (i1 :: out). split; [cbn; lia|]. rewrite L1, L2. reflexivity.
      + exfalso. pose proof (b_ne _ _ _ (hp_inv _ _ _ _ I)) as Ne. rewrite Forall_forall in Ne. exact (Ne l (nth_error_In _ _ Ej) (some_key_none _ _ _ Ek)).
  Qed.
  Lemma removes_checked : forall ovf ks s, bchecked ovf s (map (fun x : nat * skey => BRemove (Real (fst x)) (snd x) false) ks).
  Proof. intros ovf. induction ks as [|x ks IH]; intros s; cbn [map bchecked]; [exact Logic.I|]. split; [exact Logic.I|]. destruct (bstep ovf s _); [apply IH|exact Logic.I]. Qed.

  Theorem drop_any_bp : forall items bins inst ovf ops n (p : bp) h (g : G), bpinst_new items bins = Ok inst -> Forall (fun b => good_bin (fst b)) bins ->
    fine_items items -> fine_bins bins -> bchecked ovf (bp_new inst, []) ops -> bp_run ovf inst ops = Ok (p, h) ->
    (length (items_in (bp_layouts p)) < n -> drop_bp n p g = Panic) /\
    forall p' g', drop_bp n p g = Ok (p', g') ->
      (exists ks, length ks = n /\ bp_run ovf inst (ops ++ map (fun x => BRemove (Real (fst x)) (snd x) false) ks) = Ok (p', h)) /\
      shrunk (bp_layouts p) (bp_layouts p') /\ (exists out, length out = n /\ Permutation (items_in (bp_layouts p)) (out ++ items_in (bp_layouts p'))) /\
      Forall (fun l => In (ly_bin l) (map fst bins) /\ packed items (ly_bin l) (placed l)) (bp_layouts p').
  Proof.
    intros items bins inst ovf ops n p h g Hn Gb Fi Fb C R0.
    destruct (bin_history M BSok _ _ _ _ _ _ _ Hn Gb Fi Fb C R0) as (Ei & Eb & Ids & I & _).
    assert (K : forall p' g', drop_bp n p g = Ok (p', g') -> exists ks, length ks = n /\ rfold (bstep ovf) (map (fun x => BRemove (Real (fst x)) (snd x) false) ks) (p, h) = Ok (p', h) /\
      HPI M inst p' h /\ shrunk (bp_layouts p) (bp_layouts p') /\ exists out, length out = n /\ Permutation (items_in (bp_layouts p)) (out ++ items_in (bp_layouts p'))).
    { intros p' g' H. eapply drop_steps; try eassumption; [rewrite Ei; exact Fi|rewrite Eb; exact Fb]. }
    split.
    - intros Lt. destruct (drop_bp n p g) as [[p' g']|] eqn:E; [|reflexivity]. destruct (K _ _ eq_refl) as (_ & _ & _ & _ & _ & out & Lo & L).
      apply Permutation_length in L. rewrite app_length in L. lia.
    - intros p' g' H. destruct (K _ _ H) as (ks & Lk & Rk & I' & S' & L').
      assert (RR : bp_run ovf inst (ops ++ map (fun x => BRemove (Real (fst x)) (snd x) false) ks) = Ok (p', h)) by (unfold bp_run in *; rewrite rfold_app, R0; exact Rk).
      split; [exists ks; auto|]. split; [exact S'|]. split; [exact L'|].
      refine (proj1 (bp_history_packs M BSok _ _ _ _ _ _ _ Hn Gb Fi Fb _ RR)). apply bchecked_app; [exact C|]. intros s' _. apply removes_checked.
  Qed.

  (** solving, taking out, solving again *)
  Theorem twice_bp_packs : forall items bins inst n cfg (g rng : G) ptr s1 s2 p, bpinst_new items bins = Ok inst -> Forall (fun b => good_bin (fst b)) bins ->
    fine_items items -> fine_bins bins -> twice_bp n cfg inst g rng ptr = Ok (s1, s2, p) ->
    sol_packed items bins s1 /\ sol_packed items bins s2 /\ map snap_content (so_layouts s2) = map content (bp_layouts p) /\
    (exists out more rest, length out = n /\ Permutation (sol_items s1) (out ++ rest) /\ Permutation (sol_items s2) (more ++ rest)) /\
    no_more_than items (bp_layouts p) /\
    forall ovf, exists ops, bchecked ovf (bp_new inst, []) ops /\ bp_run ovf inst ops = Ok (p, [s1; s2]).
  Proof.
    intros items bins inst n cfg g rng ptr s1 s2 p Hn Gb Fi Fb H. unfold twice_bp in H. apply rbind_ok in H as ([] & _ & H).
    apply rbind_ok in H as ([[[p1 t1] g1] ptr1] & Es1 & H). apply rbind_ok in H as ([p2 rng'] & Ed & H). apply rbind_ok in H as (p3 & Ef & H).
    apply rbind_ok in H as ([[[p4 t2] g2] ptr2] & Es2 & H). injection H as -> -> ->.
    assert (Z0 : length (items_in (bp_layouts (bp_new inst))) = 0) by reflexivity.
    assert (All : forall ovf, exists ops1 ops, bchecked ovf (bp_new inst, []) ops1 /\ bp_run ovf inst ops1 = Ok (p1, [s1]) /\
      bchecked ovf (bp_new inst, []) (ops1 ++ ops) /\ bp_run ovf inst (ops1 ++ ops) = Ok (p, [s1; s2]) /\
      no_more_than items (bp_layouts p) /\ map snap_content (so_layouts s1) = map content (bp_layouts p1) /\ map snap_content (so_layouts s2) = map content (bp_layouts p) /\
      (exists out, length out = n /\ Permutation (items_in (bp_layouts p1)) (out ++ items_in (bp_layouts p2))) /\ grown (bp_layouts p3) (bp_layouts p) /\ map content (bp_layouts p3) = map content (bp_layouts p2)).
    { intros ovf. destruct (solve_any_bp items bins inst ovf cfg [] _ [] g ptr p1 s1 g1 ptr1 Hn Gb Fi Fb Logic.I eq_refl Es1) as ((o1 & C1 & R1) & _ & K1 & _ & D1). cbn [app] in C1, R1.
      destruct (proj2 (drop_any_bp items bins inst ovf o1 n p1 [s1] rng Hn Gb Fi Fb C1 R1) _ _ Ed) as ((ks & _ & R2) & Sh & L2 & _).
      assert (C2 : bchecked ovf (bp_new inst, []) (o1 ++ map (fun x => BRemove (Real (fst x)) (snd x) false) ks)) by (apply bchecked_app; [exact C1|]; intros s' _; apply removes_checked).
      assert (C3 : bchecked ovf (bp_new inst, []) ((o1 ++ map (fun x => BRemove (Real (fst x)) (snd x) false) ks) ++ [BFlush])).
      { apply bchecked_app; [exact C2|]. intros s' _. cbn [bchecked]. split; [exact Logic.I|]. destruct (bstep ovf s' BFlush); exact Logic.I. }
      assert (R3 : bp_run ovf inst ((o1 ++ map (fun x => BRemove (Real (fst x)) (snd x) false) ks) ++ [BFlush]) = Ok (p3, [s1])).
      { unfold bp_run in *. rewrite rfold_app, R2. cbn [rbind rfold bstep]. rewrite Ef. reflexivity. }
      assert (E3 : map content (bp_layouts p3) = map content (bp_layouts p2)).
      { unfold bp_flush in Ef. apply rbind_ok in Ef as (ls & Ef & Q). injection Q as <-. cbn [bp_layouts]. apply flush_all_content. exact Ef. }
      destruct (solve_any_bp items bins inst ovf cfg _ _ _ g1 ptr1 p s2 g2 ptr2 Hn Gb Fi Fb C3 R3 Es2) as ((o2 & C4 & R4) & _ & K2 & G2 & D2).
      rewrite <- !app_assoc in C4, R4. exists o1, (map (fun x => BRemove (Real (fst x)) (snd x) false) ks ++ [BFlush] ++ o2).
      split; [exact C1|]. split; [exact R1|]. split; [exact C4|]. split; [exact R4|]. split; [|auto 10].
      intros i it q Hi. destruct (D2 i it q Hi) as (A & _). destruct (D1 i it q Hi) as (B & _). cbn in B.
      assert (copies i (bp_layouts p3) <= copies i (bp_layouts p1)).
      { destruct L2 as (out & _ & L2). unfold copies. rewrite (count_perm _ _ _ L2), count_app, !items_in_c, E3. lia. }
      lia. }
    destruct (All false) as (o1 & o2 & C1 & R1 & C2 & R2 & Nm & K1 & K2 & (out & Lo & Po) & Gr & E3).
    destruct (bp_history_packs M BSok _ _ _ _ _ _ _ Hn Gb Fi Fb C2 R2) as (_ & Sp). inversion Sp as [|? ? S1 Sp2]; subst. inversion Sp2 as [|? ? S2 _]; subst.
    split; [exact S1|]. split; [exact S2|]. split; [exact K2|]. split.
    { rewrite (sol_content_items _ _ K1), (sol_content_items _ _ K2). destruct (grown_items _ _ Gr) as (more & Pm).
      exists out, more, (items_in (bp_layouts p2)). split; [reflexivity|]. split; [exact Po|]. rewrite Pm, !items_in_c, E3. reflexivity. }
    split; [exact Nm|]. intros ovf. destruct (All ovf) as (a & b & _ & _ & Ca & Ra & _). exists (a ++ b). auto.
  Qed.
End A.
