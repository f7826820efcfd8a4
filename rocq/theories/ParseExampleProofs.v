(** Files of rectangles can be read. *)
From Coq Require Import List Bool Arith Lia.
From Verif Require Import Base Num GeoModel HazardModel QTModel TransfModel PolyModel HpgModel CdeModel LayoutModel ProblemModel ParserModel SimplModel LbfModel IoModel ParseModel
  GeoSpec CdeSpec PlaceSpec ShapeSpec HpgSpec SimplSpec LbfSpec IoSpec ParseSpec
  BaseProofs HazVecProofs QTProofs CdeProofs CdeOpsProofs CdeHistProofs CdeThmProofs LayoutProofs ParityProofs PipProofs RegionProofs RigidProofs XformProofs NormProofs PoleProofs ConstructProofs GeoPrimProofs SquareProofs CombProofs CentreProofs RectPolyProofs
  FitProofs PlaceExampleProofs HpgRoomProofs StripBinProofs NoMaxProofs ParseProofs ParseThmProofs RectSurrProofs ParsePierProofs.
From Coq Require Import Reals Lra.
From Verif Require Import GeoModel HazardModel QTModel TransfModel HpgModel CdeModel CdeSpec GeoSpec PlaceSpec HpgSpec ShapeSpec SimplSpec LbfModel LbfSpec IoModel IoSpec ParseModel ParseSpec.
Import ListNotations.
Local Open Scope R_scope.
#[local] Existing Instance RTrig.
#[local] Opaque next_pole MAX_POI_TREE_DEPTH.
Section Par.
  Variable M : R.
  Local Notation NM := (RNumT Reqb M).
  Context {ED : EqD (dtransf R)} {BS : BSearch} {X : Extra R}.
  Hypothesis BSok : bsearch_ok BS.
  Variable umax : nat.
  Variable pr : parser R.
  Local Notation dtransf := (dtransf R).
  Lemma rect_cde : forall r s ptr depth cells, proper r -> good_shape s -> p_pts s = rpts (x_min r) (y_min r) (x_max r) (y_max r) -> p_bbox s = r -> cells <> 0%nat ->
    x_max r - x_min r <= 400 * (y_max r - y_min r) -> y_max r - y_min r <= 400 * (x_max r - x_min r) ->
    exists e, cde_new (N := NM) (inflate_to_square (N := NM) (p_bbox s)) [hazard_new (D := dtransf) BinExterior (Arc ptr s)] depth cells = Ok e.
  Proof.
    intros r s ptr depth cells Pr Gs Pp Eb Nc R1 R2. set (z := hazard_new (D := dtransf) BinExterior (Arc ptr s)).
    assert (Sz : static_hazard z).
    { split; [exact (good_sound _ Gs)|]. split; [|exact Logic.I]. cbn [z hazard_new h_shape a_obj]. rewrite Pp. discriminate. }
    assert (Pz : p_pts (a_obj (h_shape z)) = p_pts (rbox (x_min r) (y_min r) (x_max r) (y_max r) 0)) by (cbn [z hazard_new h_shape a_obj]; rewrite Pp; reflexivity).
    destruct (room_in M r z Pr eq_refl Pz) as (A1 & A2 & A3 & A4). pose proof Pr as (P1 & P2).
    assert (Ar : r_area (N := NM) (inflate_to_square (N := NM) r) <= 400 * r_area (N := NM) r).
    { replace (r_area (N := NM) (inflate_to_square (N := NM) r)) with (Rmax (x_max r - x_min r) (y_max r - y_min r) * Rmax (x_max r - x_min r) (y_max r - y_min r)) by (symmetry; exact A4).
      unfold r_area, r_width, r_height. cbn [fmul fsub RNumT].
      set (u := x_max r - x_min r) in *. set (v := y_max r - y_min r) in *. assert (0 < u) by (unfold u; lra). assert (0 < v) by (unfold v; lra). apply Rmax_case; nra. }
    destruct cells as [|n]; [congruence|].
    destruct (room_grid BSok M (inflate_to_square (N := NM) r) r [z] (S n) A3 A1 Pr) as (g & Eg).
    - constructor; [exact Sz|constructor].
    - exists z. split; [left; reflexivity|]. reflexivity.
    - cbn [filter]. exact A2.
    - discriminate.
    - exact Ar.
    - assert (W : Forall (wf_hazard (N := NM)) [z]) by (constructor; [exact (good_wf _ Gs)|constructor]).
      assert (Nd : NoDup (ents [z])) by (constructor; [intros []|constructor]).
      destruct (cde_new_ok (N := NM) BSok depth (inflate_to_square (N := NM) r) [z] (S n) W Nd) as (qt & Ec & _).
      rewrite Eb. rewrite Ec. assert (Eg' : hpg_new (N := NM) (inflate_to_square (N := NM) r) [z] (S n) = Ok g) by exact Eg. rewrite Eg'. cbn [rbind]. eauto.
  Qed.
  Lemma rect_fresh : forall a b w h s id v pre ptr, 0 < w -> 0 < h -> w <= 400 * h -> h <= 400 * w -> made s -> p_pts s = rpts a b (a + w) (b + h) -> cfg_cells (pr_cfg pr) <> 0%nat ->
    exists e ar, fresh_bin (N := NM) pr id s v pre [] (map (fun q => (q, [])) (seq 0 10)) ptr = Ok (Bn id (Arc ptr s) v pre [] (map (fun q => Some (QZ q [])) (seq 0 10)) e (pr_cfg pr) ar).
  Proof.
    intros a b w h s id v pre ptr Hw Hh R1 R2 Md P Nc.
    assert (Eb : p_bbox s = Rc a b (a + w) (b + h)) by (apply made_box; auto; lra).
    assert (Gs : good_shape s).
    { apply made_good; [exact Md|]. rewrite P. apply (rect_spikes a b (a + w) (b + h)); lra. }
    destruct (rect_cde (Rc a b (a + w) (b + h)) s ptr (cfg_depth (pr_cfg pr)) (cfg_cells (pr_cfg pr))) as (e & Ee); auto; [split; cbn; lra|cbn; lra|cbn; lra|].
    unfold fresh_bin. change (alloc _ []) with (@nil (arc R)).
    change (alloc_zones _ _) with (map (fun q => QZ q (@nil (arc R))) (seq 0 10)). unfold bin_new.
    change (rassert (no_repeat _)) with (Ok tt). change (rassert (forallb _ _)) with (Ok tt). cbn [rbind]. cbn zeta.
    change (zone_array _) with (map (fun q => Some (QZ q (@nil (arc R)))) (seq 0 10)).
    change (bin_hazards _ _ _) with [hazard_new (D := dtransf) BinExterior (Arc ptr s)]. cbn [a_obj]. rewrite Ee. cbn [rbind]. eexists. eexists. reflexivity.
  Qed.
  Lemma empty_zones : parse_zones (N := NM) pr [] = Ok (map (fun q => (q, [])) (seq 0 10)).
  Proof. reflexivity. Qed.
  Lemma rect_bin : forall w h cost stock id ptr, 0 < w -> 0 < h -> w <= 400 * h -> h <= 400 * w -> cfg_cells (pr_cfg pr) <> 0%nat ->
    exists b, parse_bin (N := NM) umax pr (JB cost stock (JRect w h) []) id ptr = Ok (b, match stock with Some n => n | None => umax end) /\ bn_id b = id.
  Proof.
    intros w h cost stock id ptr Hw Hh R1 R2 Nc. unfold parse_bin. cbn [jb_shape jb_zones jb_stock outer_shape hole_shapes rbind]. unfold rect_shape, poly_of_rect.
    rewrite poly_new_M. change (@f0 R NM) with 0. cbn [x_min x_max y_min y_max]. fold (rpts 0 0 w h). destruct (rpts_new 0 0 w h Hw Hh) as (s & E & P). rewrite E. cbn [rbind].
    rewrite empty_zones. cbn [rbind]. pose proof (proj1 (new_made _ _ E)) as Md.
    assert (P' : p_pts s = rpts 0 0 (0 + w) (0 + h)) by (rewrite P; unfold rpts; rewrite !Rplus_0_l; reflexivity).
    match goal with |- context [fresh_bin pr id s ?v ?pre [] _ ptr] => destruct (rect_fresh 0 0 w h s id v pre ptr Hw Hh R1 R2 Md P' Nc) as (e & ar & Ef); rewrite Ef end.
    cbn [rbind]. destruct (pr_center pr); [|cbn [rbind]; eauto].
    unfold pretransform_bin. cbn [bn_id bn_outer bn_value bn_pre bn_holes bn_zones a_obj map].
    set (c := centering_transformation (N := RNum) s). change (centering_transformation (N := NM) s) with c.
    destruct (at_shift_tr (dt_tx c) (dt_ty c) s Md) as (A & B). change (DT 0 (dt_tx c) (dt_ty c)) with c in A, B.
    assert (A' : p_pts (tr_poly (N := NM) (compose (N := NM) c) s) = rpts (dt_tx c) (dt_ty c) (dt_tx c + w) (dt_ty c + h)).
    { etransitivity; [exact A|]. rewrite P. unfold rpts. cbn [map]. unfold shifted. cbn [px py]. repeat (apply f_equal2; [apply pt_ext; cbn [px py]; lra|]). reflexivity. }
    match goal with |- context [fresh_bin pr id _ ?v ?pre [] ?zs ?p] => destruct (rect_fresh _ _ w h _ id v pre p Hw Hh R1 R2 B A' Nc) as (e' & ar' & Ef'); change zs with (map (fun q => (q, @nil (poly R))) (seq 0 10)) end.
    assert (Ef2 := Ef'). change (@compose R RNum RTrig) with (@compose R NM RTrig) in Ef2. change (@tr_poly R RNum) with (@tr_poly R NM) in Ef2. rewrite Ef2. cbn [rbind]. eauto.
  Qed.
  (** a file of rectangles *)
  Definition box_item (j : jitem R) : Prop := exists w h, ji_shape j = JRect w h /\ 0 < w /\ 0 < h.
  Definition box_bin (j : jbin R) : Prop := jb_zones j = [] /\ exists w h, jb_shape j = JRect w h /\ 0 < w /\ 0 < h /\ w <= 400 * h /\ h <= 400 * w.
  Variables (goal : R) (nff : nat).
  Hypothesis Hq : pr_surr pr = SC goal 1 nff 0.
  Lemma box_items : forall l k, Forall box_item l -> exists xs, rmapM (fun p => parse_item (N := NM) pr (snd p) (fst p)) (combine (seq k (length l)) l) = Ok xs /\
    map (fun x => it_id (fst (fst x))) xs = seq k (length l).
  Proof.
    induction l as [|j l IH]; intros k H; [exists []; split; reflexivity|]. cbn [length seq combine rmapM fst snd].
    destruct (Forall_inv H) as (w & h & Es & Hw & Hh). destruct j as [d o sh q]. cbn in Es. subst sh.
    destruct (rect_item M pr goal nff w h d o q k Hw Hh Hq) as (it & pre & E & Ei). rewrite E. cbn [rbind].
    destruct (IH (S k) (Forall_inv_tail H)) as (xs & Ex & Ey). rewrite Ex. cbn [rbind]. eexists. split; [reflexivity|]. cbn [map fst]. rewrite Ei, Ey. reflexivity.
  Qed.
  Lemma box_bins : forall l k ptr, cfg_cells (pr_cfg pr) <> 0%nat -> Forall box_bin l -> exists bs, parse_bins (N := NM) umax pr k ptr l = Ok bs /\ map (fun x => bn_id (fst x)) bs = seq k (length l).
  Proof.
    induction l as [|j l IH]; intros k ptr Nc H; [exists []; split; reflexivity|]. cbn [length seq parse_bins].
    destruct (Forall_inv H) as (Ez & w & h & Es & Hw & Hh & R1 & R2). destruct j as [c st sh zs]. cbn in Es, Ez. subst sh zs.
    destruct (rect_bin w h c st k ptr Hw Hh R1 R2 Nc) as (b & E & Ei). rewrite E. cbn [rbind].
    match goal with |- context [parse_bins umax pr (S k) ?p l] => destruct (IH (S k) p Nc (Forall_inv_tail H)) as (bs & Eb & Ey); rewrite Eb end.
    cbn [rbind]. eexists. split; [reflexivity|]. cbn [map fst]. rewrite Ei, Ey. reflexivity.
  Qed.
  Lemma ids_seq : forall n, ids_correct (seq 0 n) = true.
  Proof.
    intros n. unfold ids_correct. rewrite seq_length. apply forallb_forall. intros [a b] H.
    assert (K : forall m k, In (a, b) (combine (seq k m) (seq k m)) -> a = b).
    { clear. induction m as [|m IH]; intros k H; [destruct H|]. cbn [seq combine In] in H. destruct H as [H|H]; [injection H; congruence|eauto]. }
    cbn. apply Nat.eqb_eq. first [exact (K _ _ H)|symmetry; exact (K _ _ H)].
  Qed.
  Theorem box_file : forall items bs ptr, cfg_cells (pr_cfg pr) <> 0%nat -> Forall box_item items -> Forall box_bin bs ->
    exists inst pres, parse (N := NM) umax pr (JIn items (Some bs) None) ptr = Ok (IBP inst, pres).
  Proof.
    intros items bs ptr Nc Hi Hb. unfold parse. cbn [jn_items jn_bins jn_strip]. destruct (box_items items 0 Hi) as (xs & Ex & Ey). rewrite Ex. cbn [rbind].
    destruct (box_bins bs 0 ptr Nc Hb) as (bins & Eb & Ez). rewrite Eb. cbn [rbind]. unfold bpinst_new. rewrite map_map. cbn [fst]. rewrite Ey, Ez, !ids_seq. cbn. eauto.
  Qed.
  Theorem box_strip : forall items h ptr, Forall box_item items -> exists inst pres, parse (N := NM) umax pr (JIn items None (Some h)) ptr = Ok (ISP inst, pres).
  Proof.
    intros items h ptr Hi. unfold parse. cbn [jn_items jn_bins jn_strip]. destruct (box_items items 0 Hi) as (xs & Ex & Ey). rewrite Ex. cbn [rbind].
    unfold spinst_new. rewrite map_map. cbn [fst]. rewrite Ey, !ids_seq. cbn. eauto.
  Qed.
End Par.
