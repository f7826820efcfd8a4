(** Examples and witnesses for the statements about the checks that nothing calls, run with
    rational arithmetic. *)
From Coq Require Import List Bool Arith ZArith QArith Lia Permutation.
From Verif Require Import Base Num GeoModel HazardModel QTModel TransfModel HpgModel CdeModel CdeSpec
  PolyModel SlotMapModel LayoutModel ProblemModel ProblemSpec AssertModel AssertLayoutModel SelfCheckSpec Instances CdeExamples ProblemExamples.
Import ListNotations.
Local Open Scope nat_scope.

(** a large item covers nodes in which a small one lies; its removal is put off *)
Definition itD := CdeExamples.item 4 1 1 31 31.
Definition sops : list (op Q nat) := [OReg itB; OReg itD; ODereg (PlacedItem 4 0) false; OReg itA; OFlush].
Lemma sops_valid : valid [exterior] sops.
Proof.
  split; [split; check|]. exists (shape_of [itA; itB; itD]). unfold sops. cbn [ops_ok op_ok astep]. check.
Qed.
Definition s_none : cde Q nat * list (snapshot Q nat) := (no_cde, []).
Definition s_end : cde Q nat * list (snapshot Q nat) := or_else (engine bin_box [exterior] 3 0 sops) s_none.
Lemma s_end_ok : engine bin_box [exterior] 3 0 sops = Ok s_end.
Proof. apply or_else_ok. vm_compute. reflexivity. Qed.
Definition s_node : node Q nat := match at_path (cd_qt (fst s_end)) [2; 1] with Some m => m | None => node_new 0 bin_box end.
Definition view (h : qth Q nat) : nat * nat * bool := (match q_ent h with PlacedItem i _ => i | _ => 0 end, pres_u8 (q_pres h), q_act h).
Lemma ex_pending : valid [exterior] sops /\ engine bin_box [exterior] 3 0 sops = Ok s_end /\ pending sops = [PlacedItem 4 0] /\
  no_deactivated (cd_qt (fst s_end)) = false /\ pending (sops ++ [OCommit]) = [] /\
  valid [exterior] ops1 /\ pending ops1 = [].
Proof.
  split; [exact sops_valid|]. split; [exact s_end_ok|]. split; [reflexivity|]. split; [vm_compute; reflexivity|].
  split; [reflexivity|]. split; [exact ops1_valid|reflexivity].
Qed.
(** a node in which an item that is still there comes before the one to be removed *)
Lemma unsorted : exists m, at_path (cd_qt (fst s_end)) [2; 0] = Some m /\ map view (hv_list (n_haz m)) = [(2, 1, true); (4, 2, false)] /\
  sorted_correctly (hv_list (n_haz m)) false = Ok false /\ ~ entire_first (hv_list (n_haz m)).
Proof.
  set (m := match at_path (cd_qt (fst s_end)) [2; 0] with Some m => m | None => node_new 0 bin_box end).
  assert (E : at_path (cd_qt (fst s_end)) [2; 0] = Some m) by (vm_compute; reflexivity).
  assert (V : map view (hv_list (n_haz m)) = [(2, 1, true); (4, 2, false)]) by (vm_compute; reflexivity).
  assert (S : sorted_correctly (hv_list (n_haz m)) false = Ok false) by (vm_compute; reflexivity).
  exists m. split; [exact E|]. split; [exact V|]. split; [exact S|]. clear E S. clearbody m.
  intros H. destruct (hv_list (n_haz m)) as [|a [|b [|c r]]] eqn:El; try discriminate.
  cbn [map] in V. assert (Va : view a = (2, 1, true)) by congruence. assert (Vb : view b = (4, 2, false)) by congruence.
  assert (Pb : q_pres b = PEntire) by (unfold view in Vb; destruct (q_pres b); cbn in Vb; congruence).
  specialize (H [] a [b] b eq_refl (or_introl eq_refl) Pb). unfold view in Va. rewrite H in Va. cbn in Va. congruence.
Qed.

(** the same item twice at the same spot *)
Definition twice : layout Q nat * list (lsnap Q nat) := or_else (rfold lstep [LPlace i0 0 200; LPlace i0 0 201] (layout_new 7 b0, [])) (layout_new 7 b0, []).
Lemma twice_unseen : rfold lstep [LPlace i0 0 200; LPlace i0 0 201] (layout_new 7 b0, []) = Ok twice /\
  map (fun p => p_pts (a_obj (pi_shape p))) (sm_values (ly_items (fst twice))) = [p_pts (tr_poly (dcompose 0) (box 0 0 2 2)); p_pts (tr_poly (dcompose 0) (box 0 0 2 2))] /\
  collision_free (fst twice) = Ok true.
Proof. split; [apply or_else_ok; vm_compute; reflexivity|]. split; vm_compute; reflexivity. Qed.
Lemma same_spot : exists (l : layout Q nat) sn,
  rfold lstep [LPlace i0 0 200; LPlace i0 0 201] (layout_new 7 b0, []) = Ok (l, sn) /\
  (exists p p', sm_values (ly_items l) = [p; p'] /\ a_obj (pi_shape p) = a_obj (pi_shape p')) /\
  collision_free l = Ok true.
Proof.
  destruct twice_unseen as (E & _ & C). exists (fst twice), (snd twice). split; [rewrite E; destruct twice; reflexivity|]. split; [|exact C].
  exists (pi_new i0 0 200), (pi_new i0 0 201). split; vm_compute; reflexivity.
Qed.
Lemma unsorted_run : exists (st : list (hazard Q nat)) ops c sn m path,
  valid st ops /\ engine bin_box st 3 0 ops = Ok (c, sn) /\ at_path (cd_qt c) path = Some m /\
  sorted_correctly (hv_list (n_haz m)) false = Ok false /\ ~ entire_first (hv_list (n_haz m)).
Proof.
  destruct unsorted as (m & A & _ & S & H). exists [exterior], sops, (fst s_end), (snd s_end), m, [2; 0].
  split; [exact sops_valid|]. split; [rewrite s_end_ok; destruct s_end; reflexivity|]. auto.
Qed.
