(** Properties C78 and C79: the checks of util/assertions.rs that the library offers but does
    not call itself: [sorted_correctly], [no_deactivated],
    [activation_consistent], [collision_free] and [item_fits]. *)
From Coq Require Import List Bool Arith ZArith QArith.
From Verif Require Import Base Num GeoModel HazardModel QTModel TransfModel HpgModel CdeModel CdeSpec
  PolyModel SlotMapModel LayoutModel ProblemModel ProblemSpec Instances AssertModel AssertSpec AssertLayoutModel AssertLayoutSpec
  SelfCheckSpec SelfCheckProofs SelfCheckExamples CdeExamples ProblemExamples.
From Coq Require Import Reals Lra.
From Verif Require Import GeoModel HazardModel QTModel TransfModel HpgModel CdeModel CdeSpec GeoSpec PlaceSpec ShapeSpec LbfSpec AssertModel
  SelfCheckLayoutSpec SelfCheckLayoutProofs SelfCheckExampleProofs.
Import ListNotations.
Local Open Scope nat_scope.

(** *** C78 *)
(** a hazard kept in some node is active exactly if it is registered *)
Theorem C78_active_iff_registered :
  forall (F : Type) (N : Num F) (D : Type) (ED : EqD D) (BS : BSearch), bsearch_ok BS ->
  forall bb st lvl n (ops : list (op F D)) c sn h, valid st ops -> engine bb st lvl n ops = Ok (c, sn) -> kept_in (cd_qt c) h ->
  (q_act h = true <-> In (q_ent h) (map f_ent (facts st ops))).
Proof. intros F N D ED BS Hb. exact (act_iff Hb). Qed.
Print Assumptions C78_active_iff_registered.
(** so all nodes agree on it *)
Theorem C78_activation_consistent :
  forall (F : Type) (N : Num F) (D : Type) (ED : EqD D) (BS : BSearch), bsearch_ok BS ->
  forall bb st lvl n (ops : list (op F D)) c sn, valid st ops -> engine bb st lvl n ops = Ok (c, sn) ->
  activation_consistent (cd_qt c) = true.
Proof. intros F N D ED BS Hb. exact (activation_ok Hb). Qed.
Print Assumptions C78_activation_consistent.
(** in every node, of the active hazards those that cover the node come first *)
Theorem C78_entire_first :
  forall (F : Type) (N : Num F) (D : Type) (ED : EqD D) (BS : BSearch), bsearch_ok BS ->
  forall bb st lvl n (ops : list (op F D)) c sn path m, valid st ops -> engine bb st lvl n ops = Ok (c, sn) -> at_path (cd_qt c) path = Some m ->
  exists l, active_hazards (n_haz m) = Ok l /\ sorted_correctly l false = Ok true /\ entire_first l /\
    (forall h, In h l <-> In h (hv_list (n_haz m)) /\ q_act h = true).
Proof. intros F N D ED BS Hb. exact (order_ok Hb). Qed.
Print Assumptions C78_entire_first.
(** the inactive ones are those whose removal has been put off *)
Theorem C78_deactivated_are_pending :
  forall (F : Type) (N : Num F) (D : Type) (ED : EqD D) (BS : BSearch), bsearch_ok BS ->
  forall bb st lvl n (ops : list (op F D)) c sn, valid st ops -> engine bb st lvl n ops = Ok (c, sn) ->
  (forall e, In e (pending ops) <-> exists h, kept_in (cd_qt c) h /\ q_ent h = e /\ q_act h = false) /\
  (no_deactivated (cd_qt c) = true <-> pending ops = []).
Proof. intros F N D ED BS Hb. exact (deactivated_iff Hb). Qed.
Print Assumptions C78_deactivated_are_pending.
Example C78_example : valid [exterior] sops /\ engine CdeExamples.bin_box [exterior] 3 0 sops = Ok s_end /\ pending sops = [PlacedItem 4 0] /\
  no_deactivated (cd_qt (fst s_end)) = false /\ pending (sops ++ [OCommit]) = [] /\
  valid [exterior] ops1 /\ pending ops1 = [].
Proof. exact ex_pending. Qed.
(** The order does not extend to the inactive hazards: with a removal put off, a node can keep
    a hazard that covers it after one that does not. *)
Theorem C78_order_of_all_refuted : exists (st : list (hazard Q nat)) ops c sn m path,
  valid st ops /\ engine CdeExamples.bin_box st 3 0 ops = Ok (c, sn) /\ at_path (cd_qt c) path = Some m /\
  sorted_correctly (hv_list (n_haz m)) false = Ok false /\ ~ entire_first (hv_list (n_haz m)).
Proof. exact unsorted_run. Qed.
Print Assumptions C78_order_of_all_refuted.

(** *** C79 *)
Section Layouts.
  Variable M : R.
  #[local] Instance NPS : Num R := RNumT Reqb M.
  #[local] Existing Instance RTrig.
  Local Open Scope R_scope.
  Theorem C79_layout_checks_exact :
    forall (ED : EqD (dtransf R)) (BS : BSearch), bsearch_ok BS ->
    forall (cat : nat -> poly R) id b (ops : list (lop R (dtransf R))) (l : layout R (dtransf R)) sn,
    good_bin b -> lops_ok cat (layout_new id b, []) ops ->
    rfold lstep ops (layout_new id b, []) = Ok (l, sn) -> Forall (fun h => good_shape (a_obj (h_shape h))) (bin_statics (ly_bin l)) ->
    (forall p, In p (sm_values (ly_items l)) -> good_shape (cat (pi_item p))) ->
    (exists r, collision_free l = Ok r /\ (r = true <-> no_collisions l)) /\
    (forall it u t, good_shape (it_shape it) -> rigid t -> p_surr (it_shape it) = Some u -> surrogate_inside (it_shape it) u ->
       exists r, item_fits it t l = Ok r /\ (r = true <-> fits it t l)).
  Proof. intros ED BS Hb. exact (history_checks M Hb). Qed.
  Example C79_example : 1 < M -> forall (ED : EqD (dtransf R)) (BS : BSearch), bsearch_ok BS ->
    exists (b : bin R (dtransf R)) l1 l2,
    good_bin b /\ lops_ok only (layout_new 0 b, []) [LPlace two (at_ 4 4) 5; LPlace two (at_ 5 5) 6] /\
    rfold lstep [LPlace two (at_ 4 4) 5] (layout_new 0 b, []) = Ok (l1, []) /\
    rfold lstep [LPlace two (at_ 4 4) 5; LPlace two (at_ 5 5) 6] (layout_new 0 b, []) = Ok (l2, []) /\
    Forall (fun h => good_shape (a_obj (h_shape h))) (bin_statics (ly_bin l2)) /\
    (forall p, In p (sm_values (ly_items l2)) -> good_shape (only (pi_item p))) /\
    no_collisions l1 /\ ~ no_collisions l2 /\
    rigid (compose (at_ 1 1)) /\ (exists u, p_surr (it_shape two) = Some u /\ surrogate_inside (it_shape two) u) /\
    fits two (compose (at_ 1 1)) l1 /\ ~ fits two (compose (at_ 5 5)) l1 /\ ~ fits two (compose (at_ 9 1)) l1.
  Proof. intros HM ED BS Hb. exact (ex_checks M HM Hb). Qed.
End Layouts.
Print Assumptions C79_layout_checks_exact.
(** Without the condition that no item is placed twice at the same spot (part of [lops_ok])
    the check misses an overlap: an item is not compared with hazards of its own name. *)
Theorem C79_same_spot_refuted : exists (l : layout Q nat) sn,
  rfold lstep [LPlace i0 0 200; LPlace i0 0 201] (layout_new 7 b0, []) = Ok (l, sn) /\
  (exists p p', sm_values (ly_items l) = [p; p'] /\ a_obj (pi_shape p) = a_obj (pi_shape p')) /\
  collision_free l = Ok true.
Proof. exact same_spot. Qed.
Print Assumptions C79_same_spot_refuted.
