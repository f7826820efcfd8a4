(** Statements about exported and imported solutions: C46.  Vocabulary: IoSpec.v. *)
From Verif Require Import Base Num GeoModel HazardModel QTModel TransfModel HpgModel CdeModel CdeSpec
  PolyModel SlotMapModel LayoutModel ProblemModel ProblemSpec LbfModel IoModel IoSpec Instances LbfStripThmProofs LbfExampleProofs LbfExample2Proofs IoThmProofs IoTotalProofs IoExampleProofs.
From Coq Require Import Reals List ZArith.
From Verif Require Import GeoModel HazardModel QTModel TransfModel HpgModel CdeModel CdeSpec GeoSpec PlaceSpec HpgSpec
  SlotMapModel LayoutModel ProblemModel ProblemSpec LbfModel LbfSpec IoModel IoSpec.
Import ListNotations.
Local Open Scope R_scope.
#[local] Existing Instance RTrig.

(** *** C46: importing an exported solution rebuilds it *)
(** Bin packing: any solution recorded by any sequence of operations can be exported, and
    whatever importing the file yields has the same layouts in the same order: the same
    bins, the same items, at the same places; also the counts of items placed and of bins
    left agree. *)
Theorem C46_bins_round_trip :
  forall (M : R) (ED : EqD (dtransf R)) (BS : BSearch), let N := RNumT Reqb M in
  forall pre : nat -> transf R, (forall i, motion (pre i)) ->
  forall items bins (inst : bpinst R (dtransf R)) ovf ops p h s, bpinst_new items bins = Ok inst ->
  Forall (fun x => motion (bn_pre (fst x))) bins -> bp_run ovf inst ops = Ok (p, h) -> In s h ->
  exists js, bp_export pre inst s = Ok js /\
    forall ptr s', bp_import pre inst (js_layouts js) ptr = Ok s' ->
    Forall2 (fun sn sn' => ls_bin sn' = ls_bin sn /\ same_motions sn sn' /\ same_items pre sn sn') (so_layouts s) (so_layouts s') /\
    so_placed s' = so_placed s /\ so_bins s' = so_bins s.
Proof. intros M ED BS N. exact (bp_round_trip M). Qed.
Print Assumptions C46_bins_round_trip.
(** and importing does not panic *)
Theorem C46_bins_import_total :
  forall (M : R) (ED : EqD (dtransf R)) (BS : BSearch), bsearch_ok BS -> let N := RNumT Reqb M in
  forall pre : nat -> transf R, (forall i, motion (pre i)) ->
  forall items bins (inst : bpinst R (dtransf R)) ovf ops p h s, bpinst_new items bins = Ok inst ->
  Forall (fun x => motion (bn_pre (fst x))) bins -> Forall (fun x => sound_item M (fst x)) items ->
  Forall (fun b => good_bin (fst b)) bins -> fine_bins bins -> Forall (fun b => cfg_cells (bn_cfg (fst b)) <> 0%nat) bins ->
  bp_run ovf inst ops = Ok (p, h) -> In s h -> Forall distinct_motions (so_layouts s) ->
  exists js, bp_export pre inst s = Ok js /\ forall ptr, exists s', bp_import pre inst (js_layouts js) ptr = Ok s'.
Proof. intros M ED BS Hb N. exact (bp_import_total M Hb). Qed.
Print Assumptions C46_bins_import_total.
(** Strip packing: if no operation changed the height of the strip, the imported strip
    has the same width and height, starts at 0, and the same items are at the same
    places. *)
Theorem C46_strip_round_trip :
  forall (M : R) (ED : EqD (dtransf R)) (BS : BSearch), let N := RNumT Reqb M in
  forall pre : nat -> transf R, (forall i, motion (pre i)) ->
  forall items hgt (inst : spinst R) ovf tol w c ptr0 ops p h s, spinst_new items hgt = Ok inst -> 0 <= hgt ->
  Forall (keeps_height hgt) ops -> sp_run ovf tol inst w c ptr0 ops = Ok (p, h) -> In s h ->
  exists js, sp_export pre inst s = Ok js /\
    forall c' ptr s', sp_import pre inst (js_layouts js) c' ptr = Ok s' ->
    exists sn sn', so_layouts s = [sn] /\ so_layouts s' = [sn'] /\ same_items pre sn sn' /\ so_placed s' = so_placed s /\
      snap_box sn' = Rc 0 0 (x_max (snap_box sn) - x_min (snap_box sn)) hgt /\ y_min (snap_box sn) = 0 /\ y_max (snap_box sn) = hgt.
Proof. intros M ED BS N. exact (sp_round_trip M). Qed.
Print Assumptions C46_strip_round_trip.
(** and importing does not panic *)
Theorem C46_strip_import_total :
  forall (M : R) (ED : EqD (dtransf R)) (BS : BSearch), bsearch_ok BS -> let N := RNumT Reqb M in
  forall pre : nat -> transf R, (forall i, motion (pre i)) ->
  forall items hgt (inst : spinst R) ovf tol w c ptr0 ops p h s c', spinst_new items hgt = Ok inst -> 0 <= hgt ->
  Forall (fun x => sound_item M (fst x)) items -> cfg_cells c' <> 0%nat -> strips_constructible c' hgt ->
  Forall (keeps_height hgt) ops -> sp_run ovf tol inst w c ptr0 ops = Ok (p, h) -> In s h -> Forall distinct_motions (so_layouts s) ->
  exists js, sp_export pre inst s = Ok js /\ forall ptr, exists s', sp_import pre inst (js_layouts js) c' ptr = Ok s'.
Proof. intros M ED BS Hb N. exact (sp_import_total M Hb). Qed.
Print Assumptions C46_strip_import_total.
(** The height of a strip given another height is not rebuilt: the file has the height of
    the instance. *)
Theorem C46_height_refuted :
  forall (M : R) (ED : EqD (dtransf R)) (BS : BSearch), bsearch_ok BS -> let N := RNumT Reqb M in
  forall (pre : nat -> transf R) ovf tol,
  exists (items : list (item R * nat)) (inst : spinst R) ops p h s js s' sn sn', spinst_new items 4 = Ok inst /\
    sp_run ovf tol inst 4 (Cfg 3 4) 0 ops = Ok (p, h) /\ In s h /\ sp_export pre inst s = Ok js /\ sp_import pre inst (js_layouts js) (Cfg 3 4) 0 = Ok s' /\
    so_layouts s = [sn] /\ so_layouts s' = [sn'] /\ snap_box sn = Rc 0 0 4 2 /\ snap_box sn' = Rc 0 0 4 4.
Proof. intros M ED BS Hb N. exact (height_lost M Hb). Qed.
Print Assumptions C46_height_refuted.

(** a square bin, a square strip and one item placed meet the hypotheses *)
Example C46_bins_example : forall M, 1 < M -> let N := RNumT Reqb M in let ED := DtEq in let BS := LinSearch in forall ovf,
  exists (b : bin R (dtransf R)) inst p h s sn,
  bpinst_new ex_items [(b, 1%nat)] = Ok inst /\ motion (bn_pre b) /\ good_bin b /\ fine_bins [(b, 1%nat)] /\ cfg_cells (bn_cfg b) <> 0%nat /\
  Forall (fun x => sound_item M (fst x)) ex_items /\
  bp_run ovf inst [BPlace (PO (Template 0) 0 ex_dt) 5; BCreate None] = Ok (p, h) /\ In s h /\ so_layouts s = [sn] /\ snap_placed sn = [(0%nat, ex_dt)] /\ distinct_motions sn.
Proof. exact bp_io_example. Qed.
Example C46_strip_example : forall M, 1 < M -> let N := RNumT Reqb M in let ED := DtEq in let BS := LinSearch in forall ovf tol,
  exists (inst : spinst R) p h s sn,
  spinst_new ex_items 10 = Ok inst /\ Forall (fun x => sound_item M (fst x)) ex_items /\ strips_constructible (Cfg 3 1) 10 /\
  sp_run ovf tol inst 10 ex_cfg 0 [SPlace (PO (Real 0) 0 ex_dt) 5; SCreate] = Ok (p, h) /\ In s h /\ so_layouts s = [sn] /\ snap_placed sn = [(0%nat, ex_dt)] /\ distinct_motions sn.
Proof. exact sp_io_example. Qed.
