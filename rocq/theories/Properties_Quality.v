(** Statements about quality zones: C43.  Vocabulary: LbfSpec.v ([tolerates]), HpgSpec.v. *)
From Verif Require Import Base Num GeoModel HazardModel QTModel TransfModel HpgModel CdeModel CdeSpec
  PolyModel SlotMapModel LayoutModel ProblemModel ProblemSpec LbfModel Instances LbfProofs FilterProofs CdeExamples QualityExamples.
From Coq Require Import Reals List ZArith.
From Verif Require Import GeoModel HazardModel QTModel TransfModel HpgModel CdeModel CdeSpec GeoSpec PlaceSpec HpgSpec
  SlotMapModel LayoutModel ProblemModel ProblemSpec LbfModel LbfSpec.
Import ListNotations.
Local Open Scope R_scope.
#[local] Existing Instance RTrig.

(** *** C43: quality filtering is consistent across engine and grid *)
(** what the filter of an item leaves out: of the hazards given, the quality zones of at
    least its base quality and nothing else *)
Theorem C43_filter_exact :
  forall (F D : Type) (bq : option nat) (hs : list (hazard F D)) (e : entity D),
  In e (item_irrelevant bq hs) <-> In e (map (@h_ent F D) hs) /\ tolerates bq e.
Proof. exact @item_irrelevant_spec. Qed.
Print Assumptions C43_filter_exact.
(** The engine answers every question about the item as an engine that never knew the
    zones left out; hazards other than zones are registered and removed at will. *)
Theorem C43_filtered_equals_absent :
  forall (F : Type) (N : Num F) (D : Type) (ED : EqD D) (BS : BSearch), bsearch_ok BS ->
  forall bb depth sts ops n (c : cde F D) sn sts' n' c' sn' (q : question F D) bq,
  valid sts ops -> engine bb sts depth n ops = Ok (c, sn) -> valid sts' ops -> engine bb sts' depth n' ops = Ok (c', sn') ->
  (forall h, In (OReg h) ops -> ent_universal (h_ent h) = true) ->
  (forall h, In h sts' <-> In h sts /\ ~ tolerates bq (h_ent h)) -> good_question q -> has_irr q = true ->
  exists t, ask c (with_irr q (item_irrelevant bq (all_hazards c))) = Ok t /\ ask c' (with_irr q []) = Ok t.
Proof. intros F N D ED BS Hb. exact (filter_absent Hb). Qed.
Print Assumptions C43_filtered_equals_absent.
(** The proximity a cell reports for the item is the smaller of the stored distance to the
    bin and the items, and the distance to the closest zone not left out ([M], the largest
    number, without such a zone). *)
Theorem C43_grid_same_zones :
  forall (M : R) (D : Type) (ED : EqD D) (BS : BSearch), bsearch_ok BS -> let N := RNumT Reqb M in
  forall bb sts depth n ops c sn g, n <> 0%nat -> proper bb -> Forall static_hazard sts -> valid sts ops -> Forall grid_op ops ->
  engine bb sts depth n ops = Ok (c, sn) -> cd_hpg c = Some g -> forall bq, (forall k, bq = Some k -> (k <= N_QUALITIES)%nat) ->
  every_cell (fun ce : cell R D => exists z, nearest M sts (fun h => ent_universal (h_ent h) = false /\ ~ tolerates bq (h_ent h)) (c_cen ce) z /\
    exists d, hazard_proximity ce bq = Ok d /\ (d = Rmin (fst (c_uni ce)) z \/ d = fst (c_uni ce) /\ z = M)) (hg_grid g).
Proof. intros M D ED BS Hb N. exact (grid_proximity M Hb). Qed.
Print Assumptions C43_grid_same_zones.
(** A base quality above the number of qualities makes a cell panic, unless the pole of
    the item is smaller than the cell. *)
Theorem C43_panics_exactly :
  forall (M : R) (D : Type) (ED : EqD D) (BS : BSearch), bsearch_ok BS -> let N := RNumT Reqb M in
  forall bb sts depth n ops c sn g, n <> 0%nat -> proper bb -> sound_statics sts -> valid sts ops -> Forall grid_op ops ->
  engine bb sts depth n ops = Ok (c, sn) -> cd_hpg c = Some g -> forall r bq,
  every_cell (fun ce : cell R D => could_accommodate ce r bq = Panic <-> exists k, bq = Some k /\ (N_QUALITIES < k)%nat /\ c_rad ce <= r) (hg_grid g).
Proof. intros M D ED BS Hb N. exact (grid_accommodate_panics M Hb). Qed.
Print Assumptions C43_panics_exactly.
(** and so does the search for a place, in any layout reached by operations on layouts *)
Theorem C43_search_panics :
  forall (M : R) (ED : EqD (dtransf R)) (BS : BSearch) (G : Type) (RG : Rng R G) (X : Extra R), bsearch_ok BS -> let N := RNumT Reqb M in
  forall items li (l : layout R (dtransf R)) it cfg (r : G) g ce k, Forall (fun x => sound_item M (fst x)) items -> filled items l ->
  cde_hpg (ly_cde l) = Ok (Some g) -> In (Some ce) (g_cells (hg_grid g)) -> c_rad ce <= crad (p_poi (it_shape it)) ->
  it_quality it = Some k -> (N_QUALITIES < k)%nat -> sample_layout li l it cfg r = Panic.
Proof. intros M ED BS G RG X Hb N. exact (quality_panics M Hb). Qed.
Print Assumptions C43_search_panics.
(** a square bin without zones, one square item of base quality 11: every run panics *)
Theorem C43_no_panic_refuted :
  forall (M : R) (ED : EqD (dtransf R)) (BS : BSearch) (G : Type) (RG : Rng R G) (X : Extra R), bsearch_ok BS -> let N := RNumT Reqb M in
  exists (b : bin R (dtransf R)) inst, bin_from_strip (Rc 0 0 10 10) (Cfg 3 100) 0 = Ok b /\ bpinst_new [(fussy, 1%nat)] [(b, 1%nat)] = Ok inst /\
  good_bin b /\ fine_bins [(b, 1%nat)] /\ forall cfg (r : G) ptr, lbf_bp inst cfg r ptr = Panic.
Proof. intros M ED BS G RG X Hb N. exact (fussy_panics M Hb). Qed.
Print Assumptions C43_no_panic_refuted.
(** a zone of quality 7 hinders an item of base quality 8, not one of base quality 7 *)
Example C43_example :
  valid [exterior; zone7] [OReg itA] /\ valid [exterior] [OReg itA] /\
  (forall h, In h [exterior] <-> In h [exterior; zone7] /\ ~ tolerates (Some 7%nat) (h_ent h)) /\
  ask (eng [exterior; zone7] 0 [OReg itA]) (AskPoly (box 10 10 15 15) (item_irrelevant (Some 8%nat) (all_hazards (eng [exterior; zone7] 0 [OReg itA])))) = Ok TTrue /\
  ask (eng [exterior; zone7] 0 [OReg itA]) (AskPoly (box 10 10 15 15) (item_irrelevant (Some 7%nat) (all_hazards (eng [exterior; zone7] 0 [OReg itA])))) = Ok TFalse /\
  ask (eng [exterior] 0 [OReg itA]) (AskPoly (box 10 10 15 15) []) = Ok TFalse.
Proof. exact ex_quality. Qed.

(** *** the size of the cells, whatever the bin *)
Theorem C47_cells_small :
  forall (M : R) (D : Type) (ED : EqD D) (BS : BSearch), bsearch_ok BS -> let N := RNumT Reqb M in
  forall bb (sts : list (hazard R D)) n g, proper bb -> sound_statics sts -> hpg_new bb sts n = Ok g ->
  every_cell (fun c => c_rad c <= 7 / 2 * sqrt (r_area bb / INR n)) (hg_grid g).
Proof. intros M D ED BS Hb N. exact (cells_small M Hb). Qed.
Print Assumptions C47_cells_small.
