(** Properties C84 and C85: finding placed items by their hazards; the totals of problems. *)
From Coq Require Import List Bool Arith ZArith QArith.
From Verif Require Import Base Num GeoModel HazardModel QTModel TransfModel HpgModel CdeModel PolyModel SlotMapModel LayoutModel ProblemModel
  ProblemSpec CdeSpec Instances CdeExamples ProblemExamples BookSpec BookProofs BookExamples.
Import ListNotations.
Local Open Scope nat_scope.

(** *** C84 *)
Theorem C84_key_of_hazard :
  forall (F : Type) (N : Num F) (D : Type) (ED : EqD D) (BS : BSearch) (DC : DComp F D), bsearch_ok BS ->
  forall cat id b ops (l : layout F D) sn, good_bin b ->
  lops_ok cat (layout_new id b, []) ops -> rfold lstep ops (layout_new id b, []) = Ok (l, sn) ->
  forall e k, hazard_to_key l e = Some k <-> exists p, sm_get (ly_items l) k = Some p /\ e = PlacedItem (pi_item p) (pi_dt p).
Proof. intros F N D ED BS DC Hb. exact (key_found Hb). Qed.
Print Assumptions C84_key_of_hazard.
(** what the engine reports is traced back to a placed item exactly if it is one *)
Theorem C84_reported_hazards_traced :
  forall (F : Type) (N : Num F) (D : Type) (ED : EqD D) (BS : BSearch) (DC : DComp F D), bsearch_ok BS ->
  forall cat id b ops (l : layout F D) sn, good_bin b ->
  lops_ok cat (layout_new id b, []) ops -> rfold lstep ops (layout_new id b, []) = Ok (l, sn) ->
  forall c irr, good_collection c -> exists new, collect (ly_cde l) c irr [] = Ok new /\
    forall e, In e new ->
      (is_item e -> exists k p, hazard_to_key l e = Some k /\ sm_get (ly_items l) k = Some p /\ e = PlacedItem (pi_item p) (pi_dt p)) /\
      (~ is_item e -> hazard_to_key l e = None).
Proof. intros F N D ED BS DC Hb. exact (reported_found Hb). Qed.
Print Assumptions C84_reported_hazards_traced.
Example C84_example :
  (good_bin b0 /\ lops_ok xcat (layout_new 7 b0, []) xlops /\ rfold lstep xlops (layout_new 7 b0, []) = Ok (lrun xlops) /\
   placed (fst (lrun xlops)) = [(0, 0); (1, 80)] /\
   map (@h_ent Q nat) (cd_dyn (ly_cde (fst (lrun xlops)))) = [PlacedItem 0 0; PlacedItem 1 80]) /\
  (let l := fst (lrun xlops) in
   hazard_to_key l (PlacedItem 0 0) <> None /\ hazard_to_key l (PlacedItem 1 80) <> None /\
   hazard_to_key l (PlacedItem 0 0) <> hazard_to_key l (PlacedItem 1 80) /\
   hazard_to_key l (PlacedItem 1 0) = None /\ hazard_to_key l BinExterior = None).
Proof. exact (conj ex_mirror ex_keys). Qed.

(** *** C85 *)
Theorem C85_bp_total_quantity :
  forall (F : Type) (N : Num F) (D : Type) (ED : EqD D) (BS : BSearch) (DC : DComp F D)
    items bins (inst : bpinst F D) ovf ops (p : bp F D) h,
  bpinst_new items bins = Ok inst -> bp_run ovf inst ops = Ok (p, h) ->
  Z.of_nat (total_item_qty items) = (Zsum (bp_missing p) + Z.of_nat (length (items_in (bp_layouts p))))%Z.
Proof. intros F N D ED BS DC. exact bp_total. Qed.
Print Assumptions C85_bp_total_quantity.
Theorem C85_sp_total_quantity :
  forall (F : Type) (N : Num F) (D : Type) (ED : EqD D) (BS : BSearch) (DC : DComp F D)
    items hgt (inst : spinst F) ovf tol w c ptr ops (p : sp F D) h,
  spinst_new items hgt = Ok inst -> sp_run ovf tol inst w c ptr ops = Ok (p, h) ->
  Z.of_nat (total_item_qty items) = (Zsum (sp_missing p) + Z.of_nat (length (items_in [sp_layout p])))%Z.
Proof. intros F N D ED BS DC. exact sp_total. Qed.
Print Assumptions C85_sp_total_quantity.
(** the cost of the used bins is the value of the stock that is gone *)
Theorem C85_used_bin_cost :
  forall (F : Type) (N : Num F) (D : Type) (ED : EqD D) (BS : BSearch) (DC : DComp F D)
    items bins (inst : bpinst F D) ovf ops (p : bp F D) h,
  bpinst_new items bins = Ok inst -> bp_run ovf inst ops = Ok (p, h) ->
  length (bp_bins p) = length bins /\
  used_bin_cost (bp_layouts p) = list_sum (map (fun x => bn_value (fst (fst x)) * (snd (fst x) - snd x)) (combine bins (bp_bins p))).
Proof. intros F N D ED BS DC. exact bp_cost. Qed.
Print Assumptions C85_used_bin_cost.
Example C85_example :
  bpinst_new xitems xbins = Ok xinst /\ bp_run false xinst xops1 = Ok (xrun xops1) /\
  (bp_missing (fst (xrun xops1)) = [0; 1]%Z /\ length (items_in (bp_layouts (fst (xrun xops1)))) = 2 /\ total_item_qty xitems = 3 /\
   bp_bins (fst (xrun xops1)) = [1; 0] /\ used_bin_cost (bp_layouts (fst (xrun xops1))) = 7 + 5).
Proof. exact (conj xinst_new (conj (proj1 ex_bp1) ex_totals)). Qed.
