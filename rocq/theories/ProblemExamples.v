(** Concrete bin packing and strip packing problems, run with rational arithmetic: they
    show that the hypotheses of the theorems are met, and are the witnesses of the
    refuted statements.  Transformations are numbers: [16 * y + x] is the translation
    by [(x + 1, y + 1)]. *)
From Coq Require Import List Bool Arith ZArith QArith Lia Permutation.
From Verif Require Import Base Num GeoModel HazardModel QTModel TransfModel HpgModel CdeModel CdeSpec
  PolyModel SlotMapModel LayoutModel ProblemModel ProblemSpec Instances CdeExamples.
Import ListNotations.
Local Open Scope nat_scope.

#[export] Instance QShift : DComp Q nat :=
  {| dcompose d := transl_m (inject_Z (Z.of_nat (S (d mod 16)))) (inject_Z (Z.of_nat (S (d / 16)))) |}.

Definition or_else {A} (r : res A) (d : A) : A := match r with Ok x => x | Panic => d end.
Lemma or_else_ok : forall {A} (r : res A) d, is_ok r = true -> r = Ok (or_else r d).
Proof. intros A [x|] d H; [reflexivity|discriminate]. Qed.

(** *** a bin packing instance: two items, two bins, one of them with a hole *)
Definition no_cde : cde Q nat := Cde (node_new 0 CdeExamples.bin_box) [] [] None CdeExamples.bin_box [].
Definition no_bin : bin Q nat := Bn 0 (Arc 0 (box 0 0 1 1)) 0 t_empty [] [] no_cde (Cfg 0 0) 0%Q.
Definition b0r := bin_new (D := nat) 0 (Arc 100 (box 0 0 32 32)) 7 t_empty [Arc 101 (box 20 20 24 24)] [] (Cfg 3 0).
Definition b1r := bin_new (D := nat) 1 (Arc 102 (box 0 0 20 20)) 5 t_empty [] [] (Cfg 3 0).
Definition b0 : bin Q nat := or_else b0r no_bin.
Definition b1 : bin Q nat := or_else b1r no_bin.
Definition i0 : LayoutModel.item Q := It 0 (box 0 0 2 2) RotNone None.
Definition i1 : LayoutModel.item Q := It 1 (box 0 0 3 1) RotNone None.
Definition xitems : list (LayoutModel.item Q * nat) := [(i0, 2); (i1, 1)].
Definition xbins : list (bin Q nat * nat) := [(b0, 2); (b1, 1)].
Definition xinst : bpinst Q nat := BPI xitems (items_area xitems) xbins.
Lemma xinst_new : bpinst_new xitems xbins = Ok xinst.
Proof. vm_compute. reflexivity. Qed.
Lemma b0_good : good_bin b0.
Proof.
  split.
  - exists 0, (Arc 100 (box 0 0 32 32)), 7, t_empty, [Arc 101 (box 20 20 24 24)], [], (Cfg 3 0). vm_compute. reflexivity.
  - match goal with |- Forall ?P ?l => change l with [Hz (D := nat) BinExterior (Arc 100 (box 0 0 32 32)) true; Hz (BinHole 0) (Arc 101 (box 20 20 24 24)) true] || idtac end.
    check.
Qed.
Lemma b1_good : good_bin b1.
Proof.
  split.
  - exists 1, (Arc 102 (box 0 0 20 20)), 5, t_empty, [], [], (Cfg 3 0). vm_compute. reflexivity.
  - change (bin_statics b1) with [Hz (D := nat) BinExterior (Arc 102 (box 0 0 20 20)) true]. check.
Qed.
Lemma xinst_good : good_inst xinst.
Proof. split; [exists xitems, xbins; exact xinst_new|]. constructor; [exact b0_good|constructor; [exact b1_good|constructor]]. Qed.

(** places, removes, creates and restores; two layouts are open at the end *)
Definition xops1 : list (bop nat) :=
  [BPlace (PO (Template 0) 0 0) 200; BPlace (PO (Real 0) 1 80) 201; BCreate None;
   BRemove (Real 0) (2, 1) false; BPlace (PO (Template 1) 0 17) 202].
Definition xops2 : list (bop nat) :=
  [BFlush; BCreate (Some 0); BRemoveLayout (Real 0); BPlace (PO (Template 0) 1 33) 203; BCreate None].
Definition xops3 : list (bop nat) :=
  [BFlush; BCreate (Some 1); BRemoveLayout (Real 0); BPlace (PO (Template 0) 1 33) 203; BCreate None; BRestore 0].
Definition bp_none : bp Q nat * list (solution Q nat) := (bp_new xinst, []).
Notation xrun ops := (or_else (bp_run false xinst ops) bp_none).
Notation run_ok ovf ops := (is_ok (bp_run ovf xinst ops)).
Lemma xrun_ok : forall ops, run_ok false ops = true -> bp_run false xinst ops = Ok (xrun ops).
Proof. intros ops H. exact (or_else_ok _ _ H). Qed.
Ltac run := apply xrun_ok; vm_compute; reflexivity.
(** boolean check of the side conditions *)
Definition place_okb (items : list (LayoutModel.item Q * nat)) (l : option (layout Q nat)) (o : popt nat) : bool :=
  good_polyb (shape_at (item_shape items) (po_item o) (po_dt o)) &&
  match l with
  | Some l => negb (existsb (fun x => Nat.eqb (fst x) (po_item o) && Nat.eqb (snd x) (po_dt o)) (placed l))
  | None => true
  end.
Lemma place_okb_ok : forall items l o, place_okb items l o = true -> place_ok items l o.
Proof.
  intros items l o H. apply andb_true_iff in H as (A & B). split; [apply good_polyb_ok; exact A|].
  destruct l as [l|]; [|exact I]. intros K. apply negb_true_iff in B.
  assert (E : existsb (fun x => Nat.eqb (fst x) (po_item o) && Nat.eqb (snd x) (po_dt o)) (placed l) = true).
  { apply existsb_exists. exists (po_item o, po_dt o). split; [exact K|]. cbn. rewrite !Nat.eqb_refl. reflexivity. }
  congruence.
Qed.
Definition bop_okb (p : bp Q nat) (o : bop nat) : bool :=
  match o with BPlace o _ => place_okb (bi_items (bp_inst p)) (target p (po_layout o)) o | _ => true end.
Fixpoint bops_okb (ovf : bool) (s : bp Q nat * list (solution Q nat)) (ops : list (bop nat)) : bool :=
  match ops with
  | [] => true
  | o :: r => bop_okb (fst s) o && match bstep ovf s o with Ok s' => bops_okb ovf s' r | Panic => true end
  end.
Lemma bops_okb_ok : forall ovf ops s, bops_okb ovf s ops = true -> bops_ok ovf s ops.
Proof.
  induction ops as [|o ops IH]; intros s H; cbn [bops_ok bops_okb] in *; [exact I|].
  apply andb_true_iff in H as (A & B). split.
  - destruct o; try exact I. apply place_okb_ok; exact A.
  - destruct (bstep ovf s o) as [s'|]; [apply IH; exact B|exact I].
Qed.


(** *** facts of the examples *)
Definition bfacts (s : bp Q nat * list (solution Q nat)) :=
  (map (fun l => (ly_id l, bn_id (ly_bin l), placed l)) (bp_layouts (fst s)), bp_missing (fst s), bp_bins (fst s)).
Lemma ex_bp1 : bp_run false xinst xops1 = Ok (xrun xops1) /\
  bfacts (xrun xops1) = ([(3, 0, [(0, 0)]); (4, 1, [(0, 17)])], [0; 1]%Z, [1; 0]).
Proof. split; [run|vm_compute; reflexivity]. Qed.
Lemma ex_bp2 : bp_run false xinst (xops1 ++ xops2) = Ok (xrun (xops1 ++ xops2)) /\
  bfacts (xrun (xops1 ++ xops2)) = ([(4, 1, [(0, 17)]); (5, 0, [(1, 33)])], [1; 0]%Z, [1; 0]).
Proof. split; [run|vm_compute; reflexivity]. Qed.

(** C35: restoring a solution in a later state *)
Lemma ex_restore_bp :
  good_inst xinst /\
  bops_ok false (bp_new xinst, []) (xops1 ++ [BCreate None] ++ xops3 ++ [BRestore 1]) /\
  bp_run false xinst (xops1 ++ [BCreate None]) = Ok (xrun (xops1 ++ [BCreate None])) /\
  length (snd (xrun (xops1 ++ [BCreate None]))) = 2 /\
  bp_run false xinst (xops1 ++ [BCreate None] ++ xops3 ++ [BRestore 1]) =
    Ok (xrun (xops1 ++ [BCreate None] ++ xops3 ++ [BRestore 1])) /\
  bfacts (xrun (xops1 ++ [BCreate None] ++ xops3 ++ [BRestore 1])) =
    ([(3, 0, [(0, 0)]); (4, 1, [(0, 17)])], [0; 1]%Z, [1; 0]).
Proof.
  split; [exact xinst_good|]. split; [apply bops_okb_ok; vm_compute; reflexivity|].
  split; [run|]. split; [vm_compute; reflexivity|]. split; [run|vm_compute; reflexivity].
Qed.
(** an over-placed solution: debug builds detect the overflow of the subtraction of
    unsigned quantities *)
Definition over : list (bop nat) := [BPlace (PO (Template 0) 1 0) 200; BPlace (PO (Real 0) 1 80) 201; BCreate None].
Lemma over_panics :
  bops_ok true (bp_new xinst, []) (over ++ [BRestore 0]) /\
  is_ok (bp_run true xinst over) = true /\ bp_run true xinst (over ++ [BRestore 0]) = Panic.
Proof. split; [apply bops_okb_ok; vm_compute; reflexivity|]. vm_compute. split; reflexivity. Qed.

(** C36: a snapshot with a reference to an earlier solution *)
Definition inc_p : bp Q nat := fst (xrun (xops1 ++ [BFlush])).
Definition inc_s : solution Q nat := hd (Sol 0 [] 0%Q [] [] []) (snd (xrun (xops1 ++ [BFlush]))).
Notation inc1 := (or_else (bp_create inc_p None) (inc_s, inc_p)).
Notation inc2 := (or_else (bp_create inc_p (Some inc_s)) (inc_s, inc_p)).
Lemma ex_incremental :
  In inc_s (snd (xrun (xops1 ++ [BFlush]))) /\ bp_ref inc_p = Some (so_id inc_s) /\
  bp_create inc_p None = Ok (fst inc1, snd inc1) /\ bp_create inc_p (Some inc_s) = Ok (fst inc2, snd inc2) /\
  map (@snap_placed Q nat) (so_layouts (fst inc2)) = [[(0, 0)]; [(0, 17)]].
Proof.
  split.
  { assert (L : length (snd (xrun (xops1 ++ [BFlush]))) = 1) by (vm_compute; reflexivity).
    unfold inc_s. destruct (snd (xrun (xops1 ++ [BFlush]))) as [|x l]; [discriminate|left; reflexivity]. }
  split; [vm_compute; reflexivity|].
  split; [rewrite <- surjective_pairing; apply or_else_ok; vm_compute; reflexivity|].
  split; [rewrite <- surjective_pairing; apply or_else_ok; vm_compute; reflexivity|].
  vm_compute. reflexivity.
Qed.

(** C37: an identifier is not used again after its layout was closed *)
Lemma ex_ids :
  map (@ly_id Q nat) (bp_layouts (fst (xrun (xops1 ++ xops2)))) = [4; 5] /\
  map (@so_id Q nat) (snd (xrun (xops1 ++ xops2))) = [1; 2; 3] /\
  exists r p', bp_place (fst (xrun (xops1 ++ xops2))) (PO (Template 0) 0 0) 210 = Ok (r, p') /\
    map (@ly_id Q nat) (bp_layouts p') = [4; 5; 6].
Proof.
  split; [vm_compute; reflexivity|]. split; [vm_compute; reflexivity|].
  pose (x := bp_place (fst (xrun (xops1 ++ xops2))) (PO (Template 0) 0 0) 210).
  exists (fst (or_else x ((Real 0, (0, 0)), bp_new xinst))), (snd (or_else x ((Real 0, (0, 0)), bp_new xinst))).
  split; [|vm_compute; reflexivity]. rewrite <- surjective_pairing. apply or_else_ok. vm_compute. reflexivity.
Qed.

(** C38: removing an item from a layout that keeps another one, and putting it back *)
Definition xops4 : list (bop nat) := [BPlace (PO (Template 0) 0 0) 200; BPlace (PO (Real 0) 1 80) 201].
Definition xrem (ops : list (bop nat)) (li : lidx) (k : skey) : popt nat * bp Q nat :=
  or_else (bp_remove (fst (xrun ops)) li k true) (PO (Real 0) 0 0, bp_new xinst).
Lemma ex_undo :
  bp_run false xinst xops4 = Ok (xrun xops4) /\
  bp_remove (fst (xrun xops4)) (Real 0) (1, 1) true = Ok (xrem xops4 (Real 0) (1, 1)) /\
  length (bp_layouts (snd (xrem xops4 (Real 0) (1, 1)))) = length (bp_layouts (fst (xrun xops4))) /\
  is_ok (bp_place (snd (xrem xops4 (Real 0) (1, 1))) (fst (xrem xops4 (Real 0) (1, 1))) 202) = true.
Proof.
  split; [run|]. split; [apply or_else_ok; vm_compute; reflexivity|]. vm_compute. split; reflexivity.
Qed.
(** the layout is closed with its last item: the option names no layout any more *)
Definition xops5 : list (bop nat) := [BPlace (PO (Template 0) 0 0) 200].
Lemma undo_panics :
  bp_run false xinst xops5 = Ok (xrun xops5) /\
  bp_remove (fst (xrun xops5)) (Real 0) (1, 1) true = Ok (xrem xops5 (Real 0) (1, 1)) /\
  bp_place (snd (xrem xops5 (Real 0) (1, 1))) (fst (xrem xops5 (Real 0) (1, 1))) 202 = Panic.
Proof.
  split; [run|]. split; [apply or_else_ok; vm_compute; reflexivity|]. vm_compute. reflexivity.
Qed.
(** or it names another layout, of another bin *)
Definition xops6 : list (bop nat) := [BPlace (PO (Template 0) 0 0) 200; BPlace (PO (Template 1) 1 80) 201].
Definition xback : (lidx * skey) * bp Q nat :=
  or_else (bp_place (snd (xrem xops6 (Real 0) (1, 1))) (fst (xrem xops6 (Real 0) (1, 1))) 202)
          ((Real 0, (0, 0)), bp_new xinst).
Lemma undo_elsewhere :
  bp_run false xinst xops6 = Ok (xrun xops6) /\
  bp_remove (fst (xrun xops6)) (Real 0) (1, 1) true = Ok (xrem xops6 (Real 0) (1, 1)) /\
  bp_place (snd (xrem xops6 (Real 0) (1, 1))) (fst (xrem xops6 (Real 0) (1, 1))) 202 = Ok xback /\
  map (fun l => (bn_id (ly_bin l), placed l)) (bp_layouts (fst (xrun xops6))) = [(0, [(0, 0)]); (1, [(1, 80)])] /\
  map (fun l => (bn_id (ly_bin l), placed l)) (bp_layouts (snd xback)) = [(1, [(1, 80); (0, 0)])].
Proof.
  split; [run|]. split; [apply or_else_ok; vm_compute; reflexivity|].
  split; [apply or_else_ok; vm_compute; reflexivity|]. vm_compute. split; reflexivity.
Qed.

(** C39: layout operations *)
Definition xcat (i : nat) : poly Q := match i with 0 => it_shape i0 | _ => it_shape i1 end.
Definition xlops : list (lop Q nat) :=
  [LPlace i0 0 200; LPlace i1 80 201; LSnap; LRemove (1, 1) false; LPlace i0 21 202; LFlush; LChangeBin b1;
   LRemove (2, 1) true; LRestore 0].
Notation lrun ops := (or_else (rfold lstep ops (layout_new 7 b0, [])) (layout_new 7 no_bin, [])).
Definition lop_okb (l : layout Q nat) (o : lop Q nat) : bool :=
  match o with
  | LPlace it d _ => good_polyb (shape_at xcat (it_id it) d) &&
                     negb (existsb (fun x => Nat.eqb (fst x) (it_id it) && Nat.eqb (snd x) d) (placed l))
  | _ => true
  end.
Definition lop_static (o : lop Q nat) : Prop :=
  match o with LPlace it _ _ => it_shape it = xcat (it_id it) | LChangeBin b => good_bin b | _ => True end.
Fixpoint lops_okb (s : layout Q nat * list (lsnap Q nat)) (ops : list (lop Q nat)) : bool :=
  match ops with
  | [] => true
  | o :: r => lop_okb (fst s) o && match lstep s o with Ok s' => lops_okb s' r | Panic => true end
  end.
Lemma lops_okb_ok : forall ops s, Forall lop_static ops -> lops_okb s ops = true -> lops_ok xcat s ops.
Proof.
  induction ops as [|o ops IH]; intros s Hs H; cbn [lops_ok lops_okb] in *; [exact I|].
  inversion Hs as [|? ? S1 S2]; subst. apply andb_true_iff in H as (A & B). split.
  - destruct o; try exact I; [|exact S1]. cbn [lop_ok lop_okb lop_static] in *.
    apply andb_true_iff in A as (A1 & A2). split; [exact S1|]. split; [apply good_polyb_ok; exact A1|].
    intros K. apply negb_true_iff in A2.
    assert (X : existsb (fun x => Nat.eqb (fst x) (it_id it) && Nat.eqb (snd x) d) (placed (fst s)) = true).
    { apply existsb_exists. exists (it_id it, d). split; [exact K|]. cbn. rewrite !Nat.eqb_refl. reflexivity. }
    congruence.
  - destruct (lstep s o) as [s'|]; [apply IH; [exact S2|exact B]|exact I].
Qed.
Lemma ex_mirror :
  good_bin b0 /\ lops_ok xcat (layout_new 7 b0, []) xlops /\
  rfold lstep xlops (layout_new 7 b0, []) = Ok (lrun xlops) /\
  placed (fst (lrun xlops)) = [(0, 0); (1, 80)] /\
  map (@h_ent Q nat) (cd_dyn (ly_cde (fst (lrun xlops)))) = [PlacedItem 0 0; PlacedItem 1 80].
Proof.
  split; [exact b0_good|]. split.
  { apply lops_okb_ok; [|vm_compute; reflexivity].
    unfold xlops. repeat (constructor; [first [exact I|reflexivity|exact b1_good]|]). constructor. }
  split; [apply or_else_ok; vm_compute; reflexivity|]. vm_compute. split; reflexivity.
Qed.
(** the same item placed twice at the same spot: after removing one of the two copies
    the engine panics *)
Lemma duplicate_panics :
  rfold lstep [LPlace i0 0 200; LPlace i0 0 201; LRemove (1, 1) true] (layout_new 7 b0, []) =
    Ok (lrun [LPlace i0 0 200; LPlace i0 0 201; LRemove (1, 1) true]) /\
  placed (fst (lrun [LPlace i0 0 200; LPlace i0 0 201; LRemove (1, 1) true])) = [(0, 0)] /\
  poly_collides (ly_cde (fst (lrun [LPlace i0 0 200; LPlace i0 0 201; LRemove (1, 1) true])))
    (shape_at xcat 1 1) [] = Panic.
Proof. split; [apply or_else_ok; vm_compute; reflexivity|]. vm_compute. split; reflexivity. Qed.



(** C42 *)
Lemma ex_figures : forall s, nth_error (snd (xrun (xops1 ++ xops2))) 1 = Some s ->
  In s (snd (xrun (xops1 ++ xops2))) /\ sol_items s = [0; 0] /\ is_complete s xitems = Ok false /\
  sol_missing s xitems = Ok [0; 1]%Z /\ n_items_placed s = 2%Z.
Proof.
  intros s H. split; [eapply nth_error_In; exact H|].
  assert (G : match nth_error (snd (xrun (xops1 ++ xops2))) 1 with
              | Some s => sol_items s = [0; 0] /\ is_complete s xitems = Ok false /\
                          sol_missing s xitems = Ok [0; 1]%Z /\ n_items_placed s = 2%Z
              | None => False end) by (vm_compute; repeat split; reflexivity).
  rewrite H in G. exact G.
Qed.

Lemma key_of : forall (r : res (skey * layout Q nat)) k,
  match r with Ok (k', _) => skey_eqb k' k | Panic => false end = true -> exists l, r = Ok (k, l).
Proof.
  intros [[k' l]|] k H; [|discriminate]. unfold skey_eqb in H. apply andb_true_iff in H as (A & B).
  apply Nat.eqb_eq in A, B. exists l. destruct k', k; cbn in *; subst. reflexivity.
Qed.
(** C45: keys; and a key naming another item after a restore *)
Lemma ex_key :
  rfold lstep [LPlace i0 0 200; LRemove (1, 1) true] (layout_new 7 b0, []) =
    Ok (lrun [LPlace i0 0 200; LRemove (1, 1) true]) /\
  exists l1, layout_place (fst (lrun [LPlace i0 0 200; LRemove (1, 1) true])) i1 80 201 = Ok ((1, 3), l1).
Proof.
  split; [apply or_else_ok; vm_compute; reflexivity|].
  apply key_of. vm_compute. reflexivity.
Qed.
Definition alias : list (lop Q nat) := [LSnap; LPlace i0 0 200; LRestore 0; LPlace i1 80 201].
Lemma key_aliased :
  (exists l0, layout_place (fst (lrun [LSnap])) i0 0 200 = Ok ((1, 1), l0)) /\
  rfold lstep alias (layout_new 7 b0, []) = Ok (lrun alias) /\
  Forall (fun o => ~ removes (1, 1) o) alias /\
  exists p, sm_get (ly_items (fst (lrun alias))) (1, 1) = Some p /\ pi_item p = 1 /\ pi_dt p = 80.
Proof.
  split.
  { apply key_of. vm_compute. reflexivity. }
  split; [apply or_else_ok; vm_compute; reflexivity|]. split.
  { unfold alias. repeat (constructor; [exact (fun x => x)|]). constructor. }
  exists (or_else (match sm_get (ly_items (fst (lrun alias))) (1, 1) with Some p => Ok p | None => Panic end)
                  (pi_new i0 0 0)).
  split; [vm_compute; reflexivity|vm_compute; split; reflexivity].
Qed.
