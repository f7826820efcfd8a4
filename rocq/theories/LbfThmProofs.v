(** The statements about runs of the reference optimizer on bin packing instances. *)
From Coq Require Import List Bool Arith ZArith Lia Permutation.
From Verif Require Import Base Num GeoModel HazardModel QTModel TransfModel HpgModel CdeModel CdeSpec
  PolyModel SlotMapModel LayoutModel ProblemModel ProblemSpec LbfModel BaseProofs HazVecProofs ProblemProofs
  ProblemOpsProofs ProblemThmProofs LayoutProofs MirrorProofs Instances LbfSpec LbfProofs LbfRunProofs LbfBpProofs.
From Coq Require Import Reals Lra.
From Verif Require Import GeoModel HazardModel QTModel TransfModel HpgModel CdeModel CdeSpec GeoSpec PlaceSpec ShapeSpec LbfModel LbfSpec.
Import ListNotations.

Section T.
  Variable M : R.
  #[local] Instance NLT : Num R := RNumT Reqb M.
  #[local] Existing Instance RTrig.
  Context {ED : EqD (dtransf R)} {BS : BSearch} {G : Type} {RG : Rng R G} {X : Extra R}.
  Local Notation dtransf := (dtransf R).
  Local Notation bp := (bp R dtransf).
  Local Notation solution := (solution R dtransf).

  Lemma inst_lists : forall items bins (inst : bpinst R dtransf), bpinst_new items bins = Ok inst -> bi_items inst = items /\ bi_bins inst = bins.
  Proof. intros items bins inst H. unfold bpinst_new in H. apply rbind_ok in H as (u & _ & H). injection H as <-. auto. Qed.
  Lemma lbf_run : forall items bins (inst : bpinst R dtransf) ovf cfg (g : G) ptr p s p',
    bpinst_new items bins = Ok inst -> lbf_bp inst cfg g ptr = Ok (p, s, p') ->
    exists ops, bp_run ovf inst (place_ops ops) = Ok (p, []) /\ bp_create p None = Ok (s, p') /\ all_checked (bp_new inst) ops /\
      (forall i it q, nth_error items i = Some (it, q) -> copies i (bp_layouts p) <= q) /\
      (forall b x n, nth_error bins b = Some (x, n) -> open_of b (bp_layouts p) <= n).
  Proof.
    intros items bins inst ovf cfg g ptr p s p' Hn H. pose proof (inst_ids _ _ _ Hn) as Ids.
    destruct (lbf_bp_run M inst Ids ovf cfg g ptr p s p' H) as (ops & R1 & C1 & Nn & Ec). exists ops. split; [exact R1|]. split; [exact Ec|]. split; [exact C1|]. split.
    - intros i it q Hi. pose proof (bp_demand _ _ _ _ _ _ _ _ _ _ Hn R1 Hi) as E. apply Nn in E. lia.
    - intros b x n Hb. destruct (bp_stock _ _ _ _ _ _ _ _ _ _ Hn R1 Hb) as (a & _ & E). lia.
  Qed.
  Lemma nonneg_new : forall inst : bpinst R dtransf, no_debt (bp_new inst).
  Proof.
    intros inst i x Ex. cbn [bp_new bp_missing] in Ex. rewrite nth_error_map in Ex. destruct (nth_error (bi_items inst) i); [|discriminate]. injection Ex as <-. lia.
  Qed.
  Lemma lbf_left_out : forall items bins (inst : bpinst R dtransf) ovf cfg (g : G) ptr p s p' i it q,
    bpinst_new items bins = Ok inst -> lbf_bp inst cfg g ptr = Ok (p, s, p') -> nth_error items i = Some (it, q) -> copies i (bp_layouts p) < q ->
    exists ops1 ops2 p1, bp_run ovf inst (place_ops ops1) = Ok (p1, []) /\ bp_run ovf inst (place_ops (ops1 ++ ops2)) = Ok (p, []) /\ no_room (G := G) p1 it cfg.
  Proof.
    intros items bins inst ovf cfg g ptr p s p' i it q Hn H Hi Lt. pose proof (inst_ids _ _ _ Hn) as Ids. destruct (inst_lists _ _ _ Hn) as (Ei & Eb).
    pose proof H as H0. unfold lbf_bp in H. apply rbind_ok in H as ([] & _ & H). apply rbind_ok in H as (order & Eo & H).
    apply rbind_ok in H as ([[p1 g1] ptr1] & E & H). apply rbind_ok in H as ([s1 p2] & Ec & H). injection H as -> -> ->.
    destruct (lbf_bp_run M inst Ids ovf cfg g ptr p s p' H0) as (ops & R1 & _).
    pose proof (bp_demand _ _ _ _ _ _ _ _ _ _ Hn R1 Hi) as Em. apply (order_perm M) in Eo.
    assert (Hi' : nth_error (bi_items inst) i = Some (it, q)) by (rewrite Ei; exact Hi).
    destruct (fills_give_up M inst Ids ovf cfg i it q Hi' order _ _ _ _ _ _ _
      (Permutation_NoDup (Permutation_sym Eo) (seq_NoDup _ _))
      (Permutation_in i (Permutation_sym Eo) (proj2 (in_seq (length (bi_items inst)) 0 i) ltac:(assert (nth_error (bi_items inst) i <> None) as Q by congruence; apply nth_error_Some in Q; lia)))
      (new_inv inst) (nonneg_new inst) E Em ltac:(lia)) as (ops1 & ops2 & px & A & B & C & D).
    exists ops1, ops2, px. split; [exact A|]. split; [|exact D].
    destruct (split_checked M ovf ops1 ops2 _ _ A C) as (C1 & C2). exact (proj1 (ops_app M ovf ops1 ops2 _ _ _ A C1 B C2)).
  Qed.
  Lemma lbf_rounds : forall items bins (inst : bpinst R dtransf) ovf ops p cfg i it q m f (g : G) ptr,
    bpinst_new items bins = Ok inst -> bp_run ovf inst (place_ops ops) = Ok (p, []) -> nth_error items i = Some (it, q) ->
    nth_error (bp_missing p) i = Some m -> Z.to_nat m <= f ->
    bp_fill f cfg i it (p, g, ptr) = bp_fill (Z.to_nat m) cfg i it (p, g, ptr).
  Proof.
    intros items bins inst ovf ops p cfg i it q m f g ptr Hn R1 Hi Em L. pose proof (inst_ids _ _ _ Hn) as Ids.
    eapply (fill_fuel M inst Ids); [|eapply run_inv; eassumption|exact Em|exact L|lia].
    rewrite (proj1 (inst_lists _ _ _ Hn)), nth_error_map, Hi. reflexivity.
  Qed.

  (** *** the solution *)
  Hypothesis BSok : bsearch_ok BS.
  Lemma created_content : forall (p : bp) s p', bp_create p None = Ok (s, p') -> map snap_content (so_layouts s) = map content (bp_layouts p).
  Proof.
    intros p s p' H. unfold bp_create in H. apply rbind_ok in H as (pl & _ & H). apply rbind_ok in H as (u & _ & H).
    apply rbind_ok in H as (sl & Esl & H). injection H as <- <-. cbn [so_layouts]. apply rmapM_F2 in Esl.
    induction Esl as [|l [sn l'] ls sl Hl Esl IH]; [reflexivity|]. cbn [map fst]. rewrite IH. cbn in Hl. apply snapshot_content in Hl as (_ & E & _). rewrite E. reflexivity.
  Qed.
  Lemma content_map : forall {A} (f : nat * bin R dtransf * smap (pitem R dtransf) -> A) (sl : list (lsnap R dtransf)) (ls : list (layout R dtransf)),
    map snap_content sl = map content ls -> map (fun x => f (snap_content x)) sl = map (fun x => f (content x)) ls.
  Proof. intros A f sl ls E. rewrite <- (map_map snap_content f), E, map_map. reflexivity. Qed.
  Definition at_list (m : smap (pitem R dtransf)) : list (nat * dtransf) := map (fun p => (pi_item p, pi_dt p)) (sm_values m).
  Lemma lbf_packs : forall items bins (inst : bpinst R dtransf) cfg (g : G) ptr p s p',
    bpinst_new items bins = Ok inst -> Forall (fun b => good_bin (fst b)) bins -> fine_items items -> fine_bins bins ->
    lbf_bp inst cfg g ptr = Ok (p, s, p') ->
    Forall (fun sn => packed items (ls_bin sn) (snap_placed sn) /\ In (ls_bin sn) (map fst bins) /\ snap_placed sn <> []) (so_layouts s) /\
    (forall i it q, nth_error items i = Some (it, q) -> count i (sol_items s) <= q) /\
    (forall b x n, nth_error bins b = Some (x, n) -> count b (map (fun sn => bn_id (ls_bin sn)) (so_layouts s)) <= n).
  Proof.
    intros items bins inst cfg g ptr p s p' Hn Gb Fi Fb H. pose proof (inst_ids _ _ _ Hn) as Ids. destruct (inst_lists _ _ _ Hn) as (Ei & Eb).
    destruct (lbf_run _ _ _ false _ _ _ _ _ _ Hn H) as (ops & R1 & Ec & C1 & Dm & St). pose proof (created_content _ _ _ Ec) as Eq.
    assert (P0 : PInv M inst (bp_new inst)) by (apply (new_PI M BSok); [split; [eauto|rewrite Eb; exact Gb]|rewrite Eb; exact Fb]).
    destruct (run_PI M BSok inst false ops (bp_new inst) p [] Ids ltac:(rewrite Ei; exact Fi) P0 C1 R1) as ([_ Bi Pk _] & _).
    apply Forall_app in Bi as (Bi & _). pose proof (b_ne _ _ _ (run_inv _ _ _ _ _ Ids R1)) as Ne.
    split; [|split].
    - rewrite Forall_forall. intros sn Hs. assert (Hc : In (snap_content sn) (map content (bp_layouts p))) by (rewrite <- Eq; apply in_map; exact Hs).
      apply in_map_iff in Hc as (l & Ecl & Hl). unfold content, snap_content in Ecl. injection Ecl as _ E1 E2.
      rewrite Forall_forall in Pk, Bi, Ne. specialize (Pk l Hl). specialize (Bi l Hl). specialize (Ne l Hl).
      unfold snap_placed. rewrite <- E1, <- E2. rewrite Ei in Pk. rewrite Eb in Bi. split; [exact Pk|]. split; [apply Bi|]. intros Z. apply map_eq_nil in Z. contradiction.
    - intros i it q Hi. replace (sol_items s) with (items_in (bp_layouts p)); [exact (Dm _ _ _ Hi)|].
      unfold items_in, sol_items. rewrite !flat_map_concat_map. f_equal.
      transitivity (map (fun x => map fst (at_list (snd (content x)))) (bp_layouts p)).
      + apply map_ext. intros l. unfold at_list, content. cbn. rewrite map_map. reflexivity.
      + symmetry. exact (content_map (fun c => map fst (at_list (snd c))) _ _ Eq).
    - intros b x n Hb. specialize (St b x n Hb). unfold open_of in St.
      replace (map (fun sn => bn_id (ls_bin sn)) (so_layouts s)) with (map (fun l => bn_id (ly_bin l)) (bp_layouts p)); [exact St|].
      symmetry. exact (content_map (fun c => bn_id (snd (fst c))) _ _ Eq).
  Qed.
End T.
