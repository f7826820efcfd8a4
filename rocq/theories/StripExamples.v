(** Concrete strip packing problems, run with fixed-point arithmetic.  Transformations
    are numbers: [16 * y + x] is the translation by [(x + 1, y + 1)]. *)
From Coq Require Import List Bool Arith ZArith Lia Permutation.
From Verif Require Import Base Num GeoModel HazardModel QTModel TransfModel HpgModel CdeModel CdeSpec
  PolyModel SlotMapModel LayoutModel ProblemModel ProblemSpec Instances.
Import ListNotations.
Local Open Scope nat_scope.

#[export] Existing Instance FixNum.
#[export] Existing Instance NatEqD.
#[export] Existing Instance LinSearch.
Definition fx (z : Z) : Z := (z * 16)%Z.
#[export] Instance ZShift : DComp Z nat :=
  {| dcompose d := transl_m (fx (Z.of_nat (S (d mod 16)))) (fx (Z.of_nat (S (d / 16)))) |}.

Definition or_else {A} (r : res A) (d : A) : A := match r with Ok x => x | Panic => d end.
Lemma facts_ok : forall {A} (r : res A) d (P : A -> Prop), match r with Ok x => P x | Panic => False end ->
  r = Ok (or_else r d) /\ P (or_else r d).
Proof. intros A [x|] d P H; [split; [reflexivity|exact H]|contradiction]. Qed.

(** axis-parallel rectangle, with one pole in its centre and its diagonal as pier *)
Definition zpt (x y : Z) : point Z := Pt (fx x) (fx y).
Definition zbox (x0 y0 x1 y1 : Z) : poly Z :=
  let pts := [zpt x0 y0; zpt x1 y0; zpt x1 y1; zpt x0 y1] in
  let c := Ci (Pt ((x0 + x1) * 8)%Z ((y0 + y1) * 8)%Z) (Z.min (x1 - x0) (y1 - y0) * 8)%Z in
  Poly pts (bbox_of_points pts) (calculate_area pts) 0%Z c
       (Some (Sur [0; 1; 2; 3] [c] c [Ed (zpt x0 y0) (zpt x1 y1)] 1)).
Definition zi0 : item Z := It 0 (zbox 0 0 2 2) RotNone None.
Definition zi1 : item Z := It 1 (zbox 0 0 3 1) RotNone None.
Definition zitems : list (item Z * nat) := [(zi0, 2); (zi1, 1)].
Definition zinst : spinst Z := SPI zitems (items_area zitems) (fx 8).
Lemma zinst_new : spinst_new zitems (fx 8) = Ok zinst.
Proof. vm_compute. reflexivity. Qed.
Lemma zinst_good : good_sinst zinst.
Proof. exists zitems, (fx 8). exact zinst_new. Qed.
Lemma zsym : @feq_sym Z FixNum.
Proof. intros a b. apply Z.eqb_sym. Qed.

(** boolean check of the side conditions *)
Definition zgood (s : poly Z) : bool :=
  forallb (fun i => match get_edge s i with Ok _ => true | Panic => false end) (seq 0 (n_points s)).
Lemma zgood_ok : forall s, zgood s = true -> good_poly s.
Proof.
  intros s H i Hi. unfold zgood in H. rewrite forallb_forall in H.
  specialize (H i (proj2 (in_seq _ _ _) (conj (Nat.le_0_l i) Hi))).
  destruct (get_edge s i) as [e|]; [eauto|discriminate].
Qed.
Definition zplace_ok (items : list (item Z * nat)) (l : layout Z nat) (o : popt nat) : bool :=
  zgood (shape_at (item_shape items) (po_item o) (po_dt o)) &&
  negb (existsb (fun x => Nat.eqb (fst x) (po_item o) && Nat.eqb (snd x) (po_dt o)) (placed l)).
Definition ztol : Z := 1%Z.
Definition zop_ok (p : sp Z nat) (o : sop Z nat) : bool :=
  match o with SPlace o _ => zplace_ok (si_items (sp_inst p)) (sp_layout p) o | _ => true end.
Fixpoint zops_ok (s : sp Z nat * list (solution Z nat)) (ops : list (sop Z nat)) : bool :=
  match ops with
  | [] => true
  | o :: r => zop_ok (fst s) o && match sstep false ztol s o with Ok s' => zops_ok s' r | Panic => true end
  end.
Lemma zops_ok_ok : forall ops s, zops_ok s ops = true -> sops_ok false ztol s ops.
Proof.
  induction ops as [|o ops IH]; intros s H; cbn [sops_ok zops_ok] in *; [exact I|].
  apply andb_true_iff in H as (A & B). split.
  - destruct o; try exact I. cbn [zop_ok sop_ok] in *. apply andb_true_iff in A as (A1 & A2).
    split; [apply zgood_ok; exact A1|]. intros K. apply negb_true_iff in A2.
    match type of A2 with ?x = false => assert (E : x = true) end; [|congruence].
    apply existsb_exists. eexists. split; [exact K|]. cbn. rewrite !Nat.eqb_refl. reflexivity.
  - destruct (sstep false ztol s o) as [s'|]; [apply IH; exact B|exact I].
Qed.

Definition no_bin : bin Z nat :=
  Bn 0 (Arc 0 (zbox 0 0 1 1)) 0 t_empty [] [] (Cde (node_new 0 (Rc 0 0 0 0)%Z) [] [] None (Rc 0 0 0 0)%Z []) (Cfg 0 0) 0%Z.
Definition no_sp : sp Z nat := SP zinst (layout_new 0 no_bin) [] 0 0.
Notation zsp0 w := (or_else (sp_new (D := nat) zinst (fx w) (Cfg 2 0) 300) no_sp).
Notation zrun ops := (or_else (sp_run false ztol zinst (fx 12) (Cfg 2 0) 300 ops) (no_sp, [])).
Definition sfacts (s : sp Z nat * list (solution Z nat)) :=
  (placed (sp_layout (fst s)), sp_missing (fst s), strip_bbox (fst s), length (snd s)).
Lemma zsp0_ok : sp_new (D := nat) zinst (fx 12) (Cfg 2 0) 300 = Ok (zsp0 12).
Proof. apply (facts_ok _ _ (fun _ => True)). vm_compute. exact I. Qed.

Definition zops1 : list (sop Z nat) :=
  [SPlace (PO (Real 0) 0 0) 301; SPlace (PO (Real 0) 1 50) 302; SPlace (PO (Real 0) 0 6) 303].
Definition zops2 : list (sop Z nat) :=
  [SFit 310; SRemove (Real 0) (1, 1) false; SModify (Rc 0 0 (fx 8) (fx 8))%Z 320; SFlush].
Notation zstrip := (sp_run false ztol zinst (fx 12) (Cfg 2 0) 300).
Lemma ex_sp2 : zstrip (zops1 ++ zops2) = Ok (zrun (zops1 ++ zops2)) /\
  sfacts (zrun (zops1 ++ zops2)) = ([(1, 50)], [2; 0]%Z, Rc 0%Z 0%Z (fx 8) (fx 8), 0).
Proof. apply (facts_ok _ _ (fun s => sfacts s = _)). vm_compute. reflexivity. Qed.
(** C35 *)
Lemma ex_restore_sp :
  good_sinst zinst /\ sp_new zinst (fx 12) (Cfg 2 0) 300 = Ok (zsp0 12) /\
  sops_ok false ztol (zsp0 12, []) (zops1 ++ [SCreate] ++ zops2 ++ [SRestore 0]) /\
  (zstrip (zops1 ++ [SCreate]) = Ok (zrun (zops1 ++ [SCreate])) /\
   sfacts (zrun (zops1 ++ [SCreate])) =
     ([(0, 0); (1, 50); (0, 6)], [0; 0]%Z, Rc 0%Z 0%Z (fx 12) (fx 8), 1)) /\
  zstrip (zops1 ++ [SCreate] ++ zops2 ++ [SRestore 0]) = Ok (zrun (zops1 ++ [SCreate] ++ zops2 ++ [SRestore 0])) /\
  sfacts (zrun (zops1 ++ [SCreate] ++ zops2 ++ [SRestore 0])) =
    ([(0, 0); (1, 50); (0, 6)], [0; 0]%Z, Rc 0%Z 0%Z (fx 12) (fx 8), 1).
Proof.
  split; [exact zinst_good|]. split; [exact zsp0_ok|].
  split; [apply zops_ok_ok; vm_compute; reflexivity|].
  split; [apply (facts_ok _ _ (fun s => sfacts s = _)); vm_compute; reflexivity|].
  apply (facts_ok _ _ (fun s => sfacts s = _)); vm_compute; reflexivity.
Qed.
(** C40 *)
Lemma ex_resize :
  good_sinst zinst /\ sp_new zinst (fx 12) (Cfg 2 0) 300 = Ok (zsp0 12) /\
  sops_ok false ztol (zsp0 12, []) zops1 /\
  (zstrip zops1 = Ok (zrun zops1) /\ occupied_width (sp_layout (fst (zrun zops1))) = fx 8) /\
  (exists p', modify_strip (fst (zrun zops1)) (Rc 0 0 (fx 8) (fx 8))%Z 320 = Ok p' /\
    sfacts (p', []) = ([(0, 0); (1, 50)], [1; 0]%Z, Rc 0%Z 0%Z (fx 8) (fx 8), 0)) /\
  (exists p', fit_strip ztol (fst (zrun zops1)) 320 = Ok p' /\
    sfacts (p', []) = ([(0, 0); (1, 50); (0, 6)], [0; 0]%Z, Rc 12%Z 0%Z 148%Z (fx 8), 0)).
Proof.
  split; [exact zinst_good|]. split; [exact zsp0_ok|].
  split; [apply zops_ok_ok; vm_compute; reflexivity|].
  split; [apply (facts_ok _ _ (fun s => occupied_width (sp_layout (fst s)) = _)); vm_compute; reflexivity|].
  split.
  - exists (or_else (modify_strip (fst (zrun zops1)) (Rc 0 0 (fx 8) (fx 8))%Z 320) no_sp).
    apply (facts_ok _ _ (fun p => sfacts (p, []) = _)). vm_compute. reflexivity.
  - exists (or_else (fit_strip ztol (fst (zrun zops1)) 320) no_sp).
    apply (facts_ok _ _ (fun p => sfacts (p, []) = _)). vm_compute. reflexivity.
Qed.
Lemma fit_empty_panics : fit_strip ztol (zsp0 12) 320 = Panic.
Proof. vm_compute. reflexivity. Qed.
(** C41: a solution of another problem of the same instance with another strip *)
Definition foreign : solution Z nat := fst (or_else (sp_create (zsp0 8)) (Sol 0 [] 0%Z [] [] [], no_sp)).
Lemma foreign_strip :
  sp_new zinst (fx 12) (Cfg 2 0) 300 = Ok (zsp0 12) /\ sp_new zinst (fx 8) (Cfg 2 0) 300 = Ok (zsp0 8) /\
  (exists q, sp_create (zsp0 8) = Ok (foreign, q)) /\
  exists p', sp_restore true (zsp0 12) foreign = Ok p' /\
    map (fun s => p_bbox (a_obj (bn_outer (ls_bin s)))) (so_layouts foreign) = [Rc 0%Z 0%Z (fx 8) (fx 8)] /\
    strip_bbox p' = Rc 0%Z 0%Z (fx 12) (fx 8).
Proof.
  split; [exact zsp0_ok|]. split; [apply (facts_ok _ _ (fun _ => True)); vm_compute; exact I|]. split.
  - exists (snd (or_else (sp_create (zsp0 8)) (Sol 0 [] 0%Z [] [] [], no_sp))). unfold foreign.
    rewrite <- surjective_pairing. apply (facts_ok _ _ (fun _ => True)). vm_compute. exact I.
  - exists (or_else (sp_restore true (zsp0 12) foreign) no_sp).
    destruct (facts_ok (sp_restore true (zsp0 12) foreign) no_sp
                (fun p' => strip_bbox p' = Rc 0%Z 0%Z (fx 12) (fx 8))) as (A & B); [vm_compute; reflexivity|].
    split; [exact A|]. split; [vm_compute; reflexivity|exact B].
Qed.
