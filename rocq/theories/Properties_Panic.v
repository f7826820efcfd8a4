(** Property C93: an operation on a problem panics exactly when it cannot be carried out. *)
From Coq Require Import List Bool Arith ZArith Permutation.
From Verif Require Import Base Num GeoModel HazardModel QTModel TransfModel HpgModel CdeModel CdeSpec
  PolyModel SlotMapModel LayoutModel ProblemModel ProblemSpec LbfModel Instances LbfStripThmProofs LbfExampleProofs LbfExample2Proofs SelfCheckExampleProofs PanicSpec PanicPlainProofs PanicStripProofs.
From Coq Require Import Reals.
From Verif Require Import GeoModel HazardModel QTModel TransfModel HpgModel CdeModel CdeSpec GeoSpec PlaceSpec HpgSpec ShapeSpec LbfSpec PanicSpec ReachExampleProofs PanicGridProofs PanicExampleProofs.
Import ListNotations.

(** *** C93 *)
(** without proximity grids, in every arithmetic *)
Theorem C93_bp_exact :
  forall (F : Type) (N : Num F) (D : Type) (ED : EqD D) (BS : BSearch) (DC : DComp F D), bsearch_ok BS ->
  forall (inst : bpinst F D) ovf ops p h o, good_inst inst -> Forall (fun b => cfg_cells (bn_cfg (fst b)) = 0%nat) (bi_bins inst) ->
  bp_run ovf inst ops = Ok (p, h) -> bops_ok ovf (bp_new inst, []) ops -> bop_ok p o ->
  ((exists s', bstep ovf (p, h) o = Ok s') <-> possible ovf (latest ops) p h o).
Proof. intros F N D ED BS DC Hb. exact (plain_exact Hb). Qed.
Print Assumptions C93_bp_exact.
Theorem C93_sp_exact :
  forall (F : Type) (N : Num F) (D : Type) (ED : EqD D) (BS : BSearch) (DC : DComp F D), bsearch_ok BS -> feq_sym ->
  forall (inst : spinst F) ovf tol w c ptr ops (p0 p : sp F D) h o P, good_sinst inst -> cfg_cells c = 0%nat ->
  sp_new inst w c ptr = Ok p0 -> sops_ok ovf tol (p0, []) ops -> rfold (sstep ovf tol) ops (p0, []) = Ok (p, h) -> sop_ok p o ->
  spossible ovf p h o = Some P -> ((exists s', sstep ovf tol (p, h) o = Ok s') <-> P).
Proof. intros F N D ED BS DC Hb Sy. exact (plain_strip_exact Hb Sy). Qed.
Print Assumptions C93_sp_exact.

(** exact arithmetic, sound items, any bins *)
Local Open Scope R_scope.
#[local] Existing Instance RTrig.
Theorem C93_bp_grid_exact :
  forall (M : R) (ED : EqD (dtransf R)) (BS : BSearch), bsearch_ok BS -> let N := RNumT Reqb M in
  forall items bins (inst : bpinst R (dtransf R)) ovf ops p h o, bpinst_new items bins = Ok inst ->
  Forall (fun x => sound_item M (fst x)) items -> Forall (fun b => good_bin (fst b)) bins -> fine_bins bins ->
  bp_run ovf inst ops = Ok (p, h) -> all_spread ovf (bp_new inst, []) ops -> spread p o ->
  ((exists s', bstep ovf (p, h) o = Ok s') <-> possible ovf (latest ops) p h o).
Proof. intros M ED BS Hb N. exact (grid_exact M Hb). Qed.
Print Assumptions C93_bp_grid_exact.
Theorem C93_sp_grid_exact :
  forall (M : R) (ED : EqD (dtransf R)) (BS : BSearch), bsearch_ok BS -> let N := RNumT Reqb M in
  forall items hgt (inst : spinst R) ovf tol w c ptr ops (p0 p : sp R (dtransf R)) h o P, spinst_new items hgt = Ok inst ->
  Forall (fun x => sound_item M (fst x)) items -> sp_new inst w c ptr = Ok p0 -> rfold (sstep ovf tol) ops (p0, []) = Ok (p, h) ->
  all_sspread ovf tol (p0, []) ops -> sspread p o -> spossible ovf p h o = Some P ->
  ((exists s', sstep ovf tol (p, h) o = Ok s') <-> P).
Proof. intros M ED BS Hb N. exact (grid_strip_exact M Hb). Qed.
Print Assumptions C93_sp_grid_exact.

(** two bins, both open, and one saved solution *)
Example C93_bp_case : forall M, 1 < M -> let N := RNumT Reqb M in let E := DtEq in let L := LinSearch in
  exists (b : bin R (dtransf R)) inst ops p h, bpinst_new squares [(b, 2%nat)] = Ok inst /\
  Forall (fun x => sound_item M (fst x)) squares /\ good_bin b /\ fine_bins [(b, 2%nat)] /\
  bp_run true inst ops = Ok (p, h) /\ all_spread true (bp_new inst, []) ops /\ spread p (BPlace (PO (Real 1) 0 (at_ 4 4)) 9) /\
  (exists s, bstep true (p, h) (BPlace (PO (Real 1) 0 (at_ 4 4)) 9) = Ok s) /\
  bstep true (p, h) (BPlace (PO (Real 1) 1 (at_ 4 4)) 9) = Panic /\
  bstep true (p, h) (BPlace (PO (Real 2) 0 (at_ 4 4)) 9) = Panic /\
  bstep true (p, h) (BPlace (PO (Template 0) 0 (at_ 4 4)) 9) = Panic /\
  (exists s, bstep true (p, h) (BRemoveLayout (Real 1)) = Ok s) /\
  bstep true (p, h) (BRemoveLayout (Template 0)) = Panic /\
  bstep true (p, h) (BRestore 1) = Panic.
Proof. intros M HM N E L. exact (panic_example M HM). Qed.
(** a strip holding two squares *)
Example C93_sp_case : forall M, 1 < M -> let N := RNumT Reqb M in let E := DtEq in let L := LinSearch in
  exists (inst : spinst R) p0 ops (p : sp R (dtransf R)), spinst_new squares 10 = Ok inst /\ Forall (fun x => sound_item M (fst x)) squares /\
  sp_new inst 10 ex_cfg 0 = Ok p0 /\ rfold (sstep true 1) ops (p0, []) = Ok (p, []) /\ all_sspread true 1 (p0, []) ops /\ ops <> [] /\
  (exists s, sstep true 1 (p, []) (SBack 9 5) = Ok s) /\ (exists s, sstep true 1 (p, []) SCreate = Ok s) /\
  sstep true 1 (p, []) (SBack 0 5) = Panic /\ sstep true 1 (p, []) (SPlace (PO (Real 1) 0 (at_ 9 9)) 9) = Panic /\ sstep true 1 (p, []) (SRestore 0) = Panic.
Proof. intros M HM N E L. exact (strip_panic_example M HM). Qed.
