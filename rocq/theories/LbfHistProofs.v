(** The proximity grid of a layout, in every state operations lead to. *)
From Coq Require Import List Bool Arith ZArith Lia Permutation.
From Verif Require Import Base Num GeoModel HazardModel QTModel TransfModel HpgModel CdeModel CdeSpec
  PolyModel SlotMapModel LayoutModel ProblemModel ProblemSpec LbfModel BaseProofs HazVecProofs QTProofs CdeProofs CdeOpsProofs CdeHistProofs CdeThmProofs SlotMapProofs ProblemProofs
  ProblemOpsProofs ProblemThmProofs LayoutProofs MirrorProofs Instances RigidProofs XformProofs RegionProofs GeoPrimProofs GeoRectProofs CdeGeoProofs CdeGeoThmProofs
  HpgSpec HpgRegProofs HpgGenProofs HpgHistProofs HpgCellProofs HpgThmProofs LbfSpec LbfProofs LbfRunProofs LbfSamplerProofs.
From Coq Require Import Reals Lra.
From Verif Require Import GeoModel HazardModel QTModel TransfModel HpgModel CdeModel CdeSpec GeoSpec PlaceSpec HpgSpec ShapeSpec LbfModel LbfSpec.
Import ListNotations.
Local Open Scope R_scope.

Section L.
  Variable M : R.
  #[local] Instance NLH : Num R := RNumT Reqb M.
  #[local] Existing Instance RTrig.
  Context {ED : EqD (dtransf R)} {BS : BSearch}.
  Hypothesis BSok : bsearch_ok BS.
  Local Notation dtransf := (dtransf R).
  Local Notation layout := (layout R dtransf).

  (** *** moved items *)
  Lemma disk_moved : forall t k p, rigid t -> in_disk (tr_circle t k) (tr_point (N := RNum) t p) <-> in_disk k p.
  Proof. intros t k p Rt. unfold in_disk, tr_circle. cbn [ccen crad]. change (tr_point (N := NLH) t) with (tr_point (N := RNum) t). rewrite (rigid_dist t Rt). reflexivity. Qed.
  Lemma probed_moved : forall t s, rigid t -> probed s -> probed (tr_poly t s).
  Proof.
    intros t s Rt (u & Eu & Np & Rp & Rb & Sub). exists (tr_surr t u). unfold tr_poly. cbn [p_surr]. rewrite Eu. split; [reflexivity|]. cbn [tr_surr s_poles s_bcircle].
    split; [intros E; apply map_eq_nil in E; contradiction|]. split; [intros k Hk; apply in_map_iff in Hk as (k0 & <- & Hk); exact (Rp k0 Hk)|]. split; [exact Rb|].
    intros k p Hk Hp. apply in_map_iff in Hk as (k0 & <- & Hk). destruct (rigid_surj t Rt p) as (x & ->).
    apply (disk_moved t _ x Rt). apply (disk_moved t k0 x Rt) in Hp. exact (Sub k0 x Hk Hp).
  Qed.
  Lemma region_moved : forall t l x, rigid t -> region l x -> region (map (tr_point (N := RNum) t) l) (tr_point (N := RNum) t x).
  Proof.
    intros t l x Rt H. destruct (rigid_sets t l x Rt) as (A & B & _).
    destruct (on_border_dec l x) as [O|O]; [left; apply A; exact O|]. right. apply B. split; [exact O|]. destruct H as [H|H]; [contradiction|exact H].
  Qed.
  Lemma inside_moved : forall t s, rigid t -> poles_inside s -> poles_inside (tr_poly t s).
  Proof.
    intros t s Rt H k p Hk Hp. unfold poles_of, tr_poly in Hk. cbn [p_surr] in Hk. unfold poles_inside, poles_of in H.
    destruct (p_surr s) as [u|]; cbn [option_map] in Hk; [|destruct Hk]. cbn [tr_surr s_poles] in Hk. apply in_map_iff in Hk as (k0 & <- & Hk).
    destruct (rigid_surj t Rt p) as (x & ->). apply (disk_moved t k0 x Rt) in Hp. exact (region_moved t (p_pts s) x Rt (H k0 x Hk Hp)).
  Qed.

  (** *** histories *)
  Variable items : list (item R * nat).
  Hypothesis Snd : Forall (fun x => sound_item M (fst x)) items.
  Lemma Gi : fine_items items.
  Proof. eapply Forall_impl; [|exact Snd]. intros x H. apply (so_shape _ _ H). Qed.
  Lemma item_sound : forall i it q, nth_error items i = Some (it, q) -> sound_item M it.
  Proof. intros i it q H. rewrite Forall_forall in Snd. apply nth_error_In in H. exact (Snd _ H). Qed.
  Local Notation cat := (item_shape items).
  Definition shapeE : entity dtransf -> poly R * bool := shpE (N := NLH) cat.
  Definition known_item (p : pitem R dtransf) : Prop := exists it q, nth_error items (pi_item p) = Some (it, q).
  (** the engine of a layout with bin [b]: its grid, if the bin has one, accounts for what is registered *)
  Definition grid_state (b : bin R dtransf) (c : cde R dtransf) (sn : list (snapshot R dtransf)) : Prop :=
    match cd_hpg (bn_cde b) with
    | None => cd_hpg c = None
    | Some h0 => exists dim, fresh M (bin_box b) (bin_statics b) dim h0 /\ cok (bin_box b) shapeE (hg_grid h0) (half_diag dim) c sn
    end.
  Definition snap_state (b : bin R dtransf) (s : snapshot R dtransf) : Prop :=
    match cd_hpg (bn_cde b) with
    | None => True
    | Some h0 => snok shapeE (hg_grid h0) s /\ Forall grid_hazard (sn_dyn s)
    end.
  Definition GL (l : layout) : Prop :=
    LI cat l /\ bin_fine (ly_bin l) /\ Forall known_item (sm_values (ly_items l)) /\ grid_state (ly_bin l) (ly_cde l) [].
  Definition GS (s : lsnap R dtransf) : Prop :=
    SI cat s /\ bin_fine (ls_bin s) /\ Forall known_item (sm_values (ls_items s)) /\ snap_state (ls_bin s) (ls_cde s).
  (** there is a grid, and it can be read *)
  Definition HL (l : layout) : Prop :=
    LI cat l /\ bin_fine (ly_bin l) /\ cfg_cells (bn_cfg (ly_bin l)) <> 0%nat /\ Forall known_item (sm_values (ly_items l)) /\
    grid_state (ly_bin l) (ly_cde l) [] /\ dirtyc (ly_cde l) = false.
  Lemma HL_GL : forall l, HL l -> GL l.
  Proof. intros l (L & Bf & _ & Kn & Gr & _). split; [exact L|]. split; [exact Bf|]. split; [exact Kn|exact Gr]. Qed.
  Lemma GL_HL : forall l, GL l -> cfg_cells (bn_cfg (ly_bin l)) <> 0%nat -> dirtyc (ly_cde l) = false -> HL l.
  Proof. intros l (L & Bf & Kn & Gr) Nc Di. split; [exact L|]. split; [exact Bf|]. split; [exact Nc|]. split; [exact Kn|]. split; [exact Gr|exact Di]. Qed.

  Lemma known_facts : forall l p, LI cat l -> In p (sm_values (ly_items l)) -> known_item p ->
    exists it q, nth_error items (pi_item p) = Some (it, q) /\ a_obj (pi_shape p) = tr_poly (compose (pi_dt p)) (it_shape it).
  Proof.
    intros l p (_ & (_ & Fi & _) & _) Hp (it & q & E). exists it, q. split; [exact E|]. rewrite Forall_forall in Fi. destruct (Fi p Hp) as (Es & _).
    rewrite Es. unfold shape_at. destruct (cat_good M items Gi _ _ _ E) as (Ec & _). exact (f_equal (tr_poly (compose (pi_dt p))) Ec).
  Qed.
  Lemma grid_hazard_of : forall it d (p : pitem R dtransf), sound_item M it -> a_obj (pi_shape p) = tr_poly (compose d) (it_shape it) -> grid_hazard (pi_hazard p).
  Proof.
    intros it d p Si E. unfold grid_hazard, pi_hazard, hazard_new, pi_entity. cbn [h_ent h_active h_shape ent_position ent_universal]. rewrite E.
    split; [reflexivity|]. split; [reflexivity|]. split; [reflexivity|]. split; [exact (probed_moved _ _ (rigid_compose d) (so_probed _ _ Si))|].
    pose proof (gs_proper _ (good_tr_poly (compose d) _ (rigid_compose d) (so_shape _ _ Si))) as (A & B). split; apply Rlt_le; assumption.
  Qed.
  Lemma outer_good : forall b : bin R dtransf, bin_fine b -> good_shape (a_obj (bn_outer b)).
  Proof. intros b H. unfold bin_fine in H. rewrite Forall_forall in H. apply (H (hazard_new BinExterior (bn_outer b))). left. reflexivity. Qed.
  Lemma box_proper : forall b : bin R dtransf, bin_fine b -> proper (bin_box b).
  Proof. intros b H. exact (inflate_proper _ (gs_proper _ (outer_good b H))). Qed.
  Lemma statics_sound : forall b : bin R dtransf, bin_fine b -> sound_statics (bin_statics b).
  Proof. intros b H. unfold sound_statics. eapply Forall_impl; [|exact H]. intros h G. apply good_sound. exact G. Qed.
  Lemma items_grid : forall l, LI cat l -> Forall known_item (sm_values (ly_items l)) ->
    forall f, In f (map pfact (sm_values (ly_items l))) -> exists h, f = fact_of h /\ grid_hazard h /\ poles_inside (a_obj (h_shape h)).
  Proof.
    intros l L Kn f Hf. apply in_map_iff in Hf as (p & <- & Hp). rewrite Forall_forall in Kn. destruct (known_facts l p L Hp (Kn p Hp)) as (it & q & Ei & Es).
    exists (pi_hazard p). split; [reflexivity|]. pose proof (item_sound _ _ _ Ei) as Si. split; [exact (grid_hazard_of it _ p Si Es)|].
    unfold pi_hazard, hazard_new. cbn [h_shape]. rewrite Es. apply inside_moved; [apply rigid_compose|]. exact (so_inside _ _ Si).
  Qed.

  (** *** one operation of the engine *)
  Lemma next : forall b c sn a o, rel_l cat b c sn a -> op_ok shapeE (bin_statics b) a o -> grid_op o -> grid_state b c sn ->
    exists c' sn', step (c, sn) o = Ok (c', sn') /\ grid_state b c' sn' /\ (pending [o] (dirtyc c) = false -> dirtyc c' = false).
  Proof.
    intros b c sn a o Rel Oo Go Gr. unfold grid_state in *. destruct (cd_hpg (bn_cde b)) as [h0|].
    - destruct Gr as (dim & F & C).
      destruct (step_grid BSok M _ _ shapeE _ (hg_grid h0) (half_diag dim) c sn a o (fr_wf _ _ _ _ _ F) ltac:(apply sqrt_pos) Rel Oo Go C) as (c' & sn' & E & C' & Di & _).
      exists c', sn'. split; [exact E|]. split; [exists dim; auto|]. intros K. rewrite Di. exact K.
    - destruct (step_total BSok _ _ shapeE _ c sn a o Rel Oo Gr) as (c' & sn' & E & C'). exists c', sn'. split; [exact E|]. split; [exact C'|].
      intros _. unfold dirtyc. rewrite C'. reflexivity.
  Qed.
  Lemma state_drop : forall b c sn, grid_state b c sn -> grid_state b c [].
  Proof.
    intros b c sn H. unfold grid_state in *. destruct (cd_hpg (bn_cde b)) as [h0|]; [|exact H]. destruct H as (dim & F & A & _ & B & C & _).
    exists dim. split; [exact F|]. split; [exact A|]. auto.
  Qed.
  Lemma state_add : forall b c s, grid_state b c [] -> snap_state b s -> grid_state b c [s].
  Proof.
    intros b c s H S. unfold grid_state, snap_state in *. destruct (cd_hpg (bn_cde b)) as [h0|]; [|exact H]. destruct H as (dim & F & A & _ & B & C & _).
    exists dim. split; [exact F|]. split; [exact A|]. destruct S as (S1 & S2). auto 6.
  Qed.
  Lemma state_snap : forall b c s, grid_state b c [s] -> snap_state b s.
  Proof.
    intros b c s H. unfold grid_state, snap_state in *. destruct (cd_hpg (bn_cde b)) as [h0|]; [|exact Logic.I]. destruct H as (dim & F & _ & A & _ & _ & B).
    inversion A; inversion B; subst. auto.
  Qed.
  Lemma bin_cde_new : forall b : bin R dtransf, good_bin b -> cde_new (bin_box b) (bin_statics b) (cfg_depth (bn_cfg b)) (cfg_cells (bn_cfg b)) = Ok (bn_cde b).
  Proof. intros b ((id' & outer & value & pre & holes & zs & c & E) & _). apply bin_new_spec in E as (_ & _ & _ & _ & _ & E). exact E. Qed.
  Lemma bin_state : forall b : bin R dtransf, good_bin b -> bin_fine b ->
    grid_state b (bn_cde b) [] /\ dirtyc (bn_cde b) = false /\ (cfg_cells (bn_cfg b) <> 0%nat -> cd_hpg (bn_cde b) <> None).
  Proof.
    intros b Gb Bf. pose proof (bin_cde_new b Gb) as E0. pose proof (bin_statics_ok b Gb) as Sok.
    destruct (cde_new_ok BSok (cfg_depth (bn_cfg b)) (bin_box b) (bin_statics b) (cfg_cells (bn_cfg b)) (proj1 Sok) (proj2 Sok)) as (qt & E' & _).
    rewrite E' in E0. apply rbind_ok in E0 as (og & Eg & E0). injection E0 as E0. unfold grid_state, dirtyc. rewrite <- E0. cbn [cd_hpg].
    destruct (cfg_cells (bn_cfg b)) as [|n] eqn:Ec.
    - assert (og = None) as -> by congruence. split; [reflexivity|]. split; [reflexivity|]. intros K. contradiction.
    - apply rbind_ok in Eg as (g0 & Eg & Eo). injection Eo as <-.
      destruct (hpg_new_ok BSok M (bin_box b) (bin_statics b) (S n) g0 (box_proper b Bf) (statics_sound b Bf) Eg) as (dim & F).
      split; [|split; [apply dirty_nil, F|discriminate]]. exists dim. split; [exact F|].
      split; [|repeat split; constructor]. exists g0. split; [reflexivity|]. split; [apply F|apply F|apply same_grid_refl| |].
      + intros i c Hc. left. apply (fr_cells _ _ _ _ _ F i c Hc).
      + intros i c Hc. left. apply (fr_cells _ _ _ _ _ F i c Hc).
  Qed.
  Lemma HL_content : forall l, HL l -> exists g0 dim g, cd_hpg (ly_cde l) = Some g /\ cde_hpg (ly_cde l) = Ok (Some g) /\
    fresh M (bin_box (ly_bin l)) (bin_statics (ly_bin l)) dim g0 /\ same_grid (hg_grid g0) (hg_grid g) /\
    all_cells (owned_cell [] (map pfact (sm_values (ly_items l)))) (hg_grid g).
  Proof.
    intros l (L & Bf & Nc & Kn & Gr & Di). pose proof (proj2 (proj2 (bin_state _ (proj1 L) Bf)) Nc) as Ne. unfold grid_state in Gr.
    destruct (cd_hpg (bn_cde (ly_bin l))) as [g0|]; [|contradiction]. destruct Gr as (dim & F & (g & Eg & [_ _ G3 G4 _]) & _).
    exists g0, dim, g. split; [exact Eg|]. unfold dirtyc in Di. rewrite Eg in Di. split; [unfold cde_hpg; rewrite Eg; cbn [expect rbind]; rewrite Di; reflexivity|].
    split; [exact F|]. split; [exact G3|]. assert (Eu : hg_unc g = []) by (unfold hpg_dirty in Di; destruct (hg_unc g); [reflexivity|discriminate]).
    rewrite Eu in G4. intros i c Ec. eapply owned_perm; [exact (rl_facts _ _ _ _ _ _ _ (proj2 (proj2 L)))|exact (G4 i c Ec)].
  Qed.
  Lemma HL_hpg : forall l, HL l -> exists g, cde_hpg (ly_cde l) = Ok (Some g) /\ every_cell (static_cell M (bin_statics (ly_bin l))) (hg_grid g).
  Proof.
    intros l H. destruct (HL_content l H) as (g0 & dim & g & _ & Eh & F & Sg & _). exists g. split; [exact Eh|]. apply every_all. exact (same_static M _ _ _ _ _ F Sg).
  Qed.

  (** *** new layouts, placing, removing *)
  Lemma GL_new : forall id (b : bin R dtransf), good_bin b -> bin_fine b -> GL (layout_new id b).
  Proof.
    intros id b Gb Bf. split; [apply (new_LI BSok); exact Gb|]. cbn [layout_new ly_bin ly_items ly_cde]. split; [exact Bf|]. split; [constructor|]. apply bin_state; assumption.
  Qed.
  Lemma HL_new : forall id (b : bin R dtransf), good_bin b -> bin_fine b -> cfg_cells (bn_cfg b) <> 0%nat -> HL (layout_new id b).
  Proof. intros id b Gb Bf Nc. apply GL_HL; [apply GL_new; assumption|exact Nc|]. cbn [layout_new ly_cde]. apply bin_state; assumption. Qed.
  Lemma GL_clone : forall l id, GL l -> GL (clone_with_id l id).
  Proof. intros l id (L & Bf & Kn & Gr). split; [apply clone_LI; exact L|]. split; [exact Bf|]. split; [exact Kn|exact Gr]. Qed.
  Lemma HL_clone : forall l id, HL l -> HL (clone_with_id l id).
  Proof. intros l id H. pose proof H as (_ & _ & Nc & _ & _ & Di). apply GL_HL; [apply GL_clone, HL_GL, H|exact Nc|exact Di]. Qed.
  Lemma GL_place : forall l it q d ptr, GL l -> nth_error items (it_id it) = Some (it, q) -> ~ In (it_id it, d) (placed l) ->
    exists k l', layout_place l it d ptr = Ok (k, l') /\ GL l' /\ (dirtyc (ly_cde l) = false -> dirtyc (ly_cde l') = false).
  Proof.
    intros l it q d ptr H Ni Nin. pose proof H as (L & Bf & Kn & Gr). pose proof (item_sound _ _ _ Ni) as Si.
    set (p := pi_new it d ptr : pitem R dtransf). destruct (cat_good M items Gi _ _ _ Ni) as (Ec & _).
    assert (Gp : good_poly (a_obj (pi_shape p))) by exact (good_wf _ (good_tr_poly (compose d) _ (rigid_compose d) (so_shape _ _ Si))).
    assert (Fresh : ~ In (h_ent (pi_hazard p)) (map f_ent (map pfact (sm_values (ly_items l))))).
    { intros K. rewrite map_map in K. apply in_map_iff in K as (x & Ex & Hx).
      apply Nin. unfold placed. apply in_map_iff. exists x. split; [|exact Hx]. cbn in Ex. unfold pi_entity in Ex. injection Ex as E1 E2. rewrite E1, E2. reflexivity. }
    assert (Oo : op_ok shapeE (bin_statics (ly_bin l)) (map pfact (sm_values (ly_items l)), []) (OReg (pi_hazard p))).
    { split; [exact Gp|]. split; [|split; [apply pi_not_static|exact Fresh]]. unfold denotes, shapeE. exact (f_equal (fun s => (tr_poly (compose d) s, true)) Ec). }
    destruct (next _ _ _ _ _ (proj2 (proj2 L)) Oo ltac:(exact (grid_hazard_of it d p Si eq_refl)) Gr) as (c & sn & Es & Gr' & Di).
    cbn [step] in Es. apply rbind_ok in Es as (c1 & Er & Es). injection Es as <- <-.
    unfold layout_place. fold p. destruct (sm_insert (ly_items l) p) as [k m] eqn:Ins.
    assert (El : layout_place l it d ptr = Ok (k, Ly (ly_id l) (ly_bin l) m c1)) by (unfold layout_place; fold p; rewrite Ins, Er; reflexivity).
    exists k, (Ly (ly_id l) (ly_bin l) m c1). split; [rewrite Er; reflexivity|].
    assert (L' : LI cat (Ly (ly_id l) (ly_bin l) m c1)).
    { eapply (place_LI BSok); [exact L|symmetry; exact Ec| |exact Nin|exact El].
      exact (eq_ind_r (fun s => good_poly (tr_poly (compose d) s)) Gp Ec). }
    pose proof (insert_perm (ly_items l) p (proj1 (proj1 (proj2 L)))) as Pm. rewrite Ins in Pm. cbn [snd] in Pm.
    split; [|exact Di]. split; [exact L'|]. cbn [ly_bin ly_items ly_cde]. split; [exact Bf|]. split; [|exact Gr'].
    eapply Permutation_Forall; [symmetry; exact Pm|]. constructor; [exists it, q; exact Ni|exact Kn].
  Qed.
  Lemma place_bin : forall (l : layout) it d ptr k l', layout_place l it d ptr = Ok (k, l') -> ly_bin l' = ly_bin l /\ ly_id l' = ly_id l.
  Proof. intros l it d ptr k l' H. unfold layout_place in H. destruct (sm_insert _ _). apply rbind_ok in H as (c & _ & H). injection H as _ <-. auto. Qed.
  Lemma HL_place : forall l it q d ptr, HL l -> nth_error items (it_id it) = Some (it, q) -> ~ In (it_id it, d) (placed l) ->
    exists k l', layout_place l it d ptr = Ok (k, l') /\ HL l'.
  Proof.
    intros l it q d ptr H Ni Nin. destruct (GL_place l it q d ptr (HL_GL l H) Ni Nin) as (k & l' & E & H' & Di). exists k, l'. split; [exact E|].
    pose proof H as (_ & _ & Nc & _ & _ & D0). apply GL_HL; [exact H'| |exact (Di D0)]. rewrite (proj1 (place_bin _ _ _ _ _ _ E)). exact Nc.
  Qed.
  Lemma GL_remove : forall l k b p m, GL l -> sm_remove (ly_items l) k = Some (p, m) ->
    exists l', layout_remove l k b = Ok (p, l') /\ GL l' /\ ly_bin l' = ly_bin l /\ (b = true -> dirtyc (ly_cde l) = false -> dirtyc (ly_cde l') = false).
  Proof.
    intros l k b p m H Er. pose proof H as (L & Bf & Kn & Gr). pose proof L as (_ & Fi & Rel).
    destruct (remove_fine cat _ _ _ _ Fi Er) as (_ & Pm & _ & _).
    assert (Oo : op_ok shapeE (bin_statics (ly_bin l)) (map pfact (sm_values (ly_items l)), []) (ODereg (pi_entity p) b)).
    { cbn [op_ok fst]. rewrite pfact_ents. eapply Permutation_in; [symmetry; apply (Permutation_map pi_entity Pm)|]. left. reflexivity. }
    destruct (next _ _ _ _ _ Rel Oo Logic.I Gr) as (c & sn & Es & Gr' & Di). cbn [step] in Es. apply rbind_ok in Es as (c1 & Ed & Es). injection Es as <- <-.
    assert (El : layout_remove l k b = Ok (p, Ly (ly_id l) (ly_bin l) m c1)) by (unfold layout_remove; rewrite Er; cbn [expect rbind]; rewrite Ed; reflexivity).
    exists (Ly (ly_id l) (ly_bin l) m c1). split; [exact El|]. split; [|split; [reflexivity|]].
    - split; [exact (remove_LI BSok cat _ _ _ _ _ L El)|]. cbn [ly_bin ly_items ly_cde]. split; [exact Bf|]. split; [|exact Gr'].
      pose proof (Permutation_Forall Pm Kn) as K. inversion K; subst. assumption.
    - intros -> D0. apply Di. cbn [pending]. exact D0.
  Qed.
  Lemma GL_flush : forall l, GL l -> exists l', layout_flush l = Ok l' /\ GL l' /\ ly_bin l' = ly_bin l /\ dirtyc (ly_cde l') = false.
  Proof.
    intros l H. pose proof H as (L & Bf & Kn & Gr). destruct (next _ _ _ _ OFlush (proj2 (proj2 L)) Logic.I Logic.I Gr) as (c & sn & Es & Gr' & Di).
    cbn [step] in Es. apply rbind_ok in Es as (c1 & Ed & Es). injection Es as <- <-.
    assert (El : layout_flush l = Ok (Ly (ly_id l) (ly_bin l) (ly_items l) c1)) by (unfold layout_flush; rewrite Ed; reflexivity).
    eexists. split; [exact El|]. split; [|split; [reflexivity|exact (Di eq_refl)]]. split; [exact (flush_LI BSok cat _ _ L El)|]. split; [exact Bf|]. split; [exact Kn|exact Gr'].
  Qed.
  Lemma GL_snapshot : forall l, GL l -> exists s l', layout_snapshot l = Ok (s, l') /\ GL l' /\ GS s /\ ly_bin l' = ly_bin l /\ ls_bin s = ly_bin l /\ dirtyc (ly_cde l') = false.
  Proof.
    intros l H. pose proof H as (L & Bf & Kn & Gr). destruct (next _ _ _ _ OSnap (proj2 (proj2 L)) Logic.I Logic.I Gr) as (c & sn & Es & Gr' & Di).
    cbn [step] in Es. apply rbind_ok in Es as ([s c'] & E & Es). cbn [app] in Es. injection Es as <- <-.
    set (l' := Ly (ly_id l) (ly_bin l) (ly_items l) c').
    assert (El : layout_snapshot l = Ok (Ls (ly_id l) (ly_bin l) (ly_items l) s (layout_usage l'), l')) by (unfold layout_snapshot; rewrite E; reflexivity).
    destruct (snap_SI BSok cat _ _ _ L El) as (A & B). eexists. exists l'. split; [exact El|]. split; [|split; [|split; [reflexivity|split; [reflexivity|exact (Di eq_refl)]]]].
    - split; [exact A|]. split; [exact Bf|]. split; [exact Kn|]. exact (state_drop _ _ _ Gr').
    - split; [exact B|]. split; [exact Bf|]. split; [exact Kn|]. exact (state_snap _ _ _ Gr').
  Qed.
  Lemma HL_snapshot : forall l, HL l -> exists s l', layout_snapshot l = Ok (s, l').
  Proof. intros l H. destruct (GL_snapshot l (HL_GL l H)) as (s & l' & E & _). eauto. Qed.
  Lemma GL_restore : forall l s, GL l -> GS s -> ly_id l = ls_id s -> ly_bin l = ls_bin s ->
    exists l', layout_restore l s = Ok l' /\ GL l' /\ ly_bin l' = ly_bin l /\ dirtyc (ly_cde l') = false.
  Proof.
    intros l s H Hs Ei Eb. pose proof H as (L & Bf & Kn & Gr). pose proof Hs as (Ss & _ & Ks & Sg). pose proof Ss as (_ & _ & P & Sd).
    rewrite <- Eb in Sg. pose proof (rel_add cat _ _ _ _ _ (proj2 (proj2 L)) (SI_snap_ok cat s _ Ss (proj1 L)) Sd P) as Rel.
    destruct (next _ _ _ _ (ORestore 0) Rel ltac:(cbn; lia) Logic.I (state_add _ _ _ Gr Sg)) as (c & sn & Es & Gr' & Di).
    cbn [step nth_error expect rbind] in Es. apply rbind_ok in Es as (c1 & Ed & Es). injection Es as <- <-.
    assert (El : layout_restore l s = Ok (Ly (ly_id l) (ly_bin l) (ls_items s) c1)).
    { unfold layout_restore. rewrite Ei, Nat.eqb_refl. cbn [rassert rbind]. rewrite Ed, <- Ei. reflexivity. }
    eexists. split; [exact El|]. split; [|split; [reflexivity|exact (Di eq_refl)]]. split; [exact (restore_LI BSok cat _ _ _ L Ss El)|]. split; [exact Bf|]. split; [exact Ks|].
    exact (state_drop _ _ _ Gr').
  Qed.
  Lemma GL_from_snapshot : forall s, GS s -> exists l', layout_from_snapshot s = Ok l' /\ GL l' /\ ly_bin l' = ls_bin s /\ dirtyc (ly_cde l') = false.
  Proof. intros s H. apply (GL_restore (layout_new (ls_id s) (ls_bin s)) s); [|exact H|reflexivity|reflexivity]. apply GL_new; [exact (proj1 (proj1 H))|exact (proj1 (proj2 H))]. Qed.
  (** all items registered in a new bin *)
  Lemma GL_change_bin : forall l b, GL l -> good_bin b -> bin_fine b ->
    exists l', layout_change_bin l b = Ok l' /\ GL l' /\ ly_bin l' = b /\ dirtyc (ly_cde l') = false.
  Proof.
    intros l b H Gb Bf. pose proof H as (L & _ & Kn & _). pose proof L as (_ & (S1 & S2 & S3) & _). pose proof (bin_state b Gb Bf) as (Gr & Di & _).
    pose proof (new_LI BSok cat 0 b Gb) as (_ & _ & R0). cbn [ly_bin ly_cde ly_items layout_new] in R0. change (rel_l cat b (bn_cde b) [] ([], [])) in R0.
    assert (Run : forall ps A c, rel_l cat b c [] (A, []) -> grid_state b c [] -> dirtyc c = false -> incl ps (sm_values (ly_items l)) -> NoDup (map pi_entity ps) ->
      (forall p, In p ps -> ~ In (pi_entity p) (map f_ent A)) ->
      exists c', rfold (fun c p => cde_register c (pi_hazard p)) ps c = Ok c' /\ grid_state b c' [] /\ dirtyc c' = false).
    { induction ps as [|p ps IH]; intros A c Rl Gc Dc Inc ND Fr; cbn [rfold]; [eauto|]. assert (Hp : In p (sm_values (ly_items l))) by (apply Inc; left; reflexivity).
      cbn [map] in ND. inversion ND as [|? ? N1 N2]; subst. rewrite Forall_forall in S2, Kn. pose proof (S2 p Hp) as Fp.
      assert (Oo : op_ok shapeE (bin_statics b) (A, []) (OReg (pi_hazard p))).
      { split; [exact (proj2 Fp)|]. split; [exact (pi_denotes cat p Fp)|]. split; [apply pi_not_static|]. apply Fr. left. reflexivity. }
      destruct (known_facts l p L Hp (Kn p Hp)) as (it & q & Ei & Es).
      destruct (next _ _ _ _ _ Rl Oo ltac:(exact (grid_hazard_of it _ p (item_sound _ _ _ Ei) Es)) Gc) as (c1 & sn & Est & Gc1 & Dc1).
      pose proof (step_related BSok _ _ _ _ _ _ _ _ _ _ Rl Oo Est) as Rl1. cbn [step] in Est. apply rbind_ok in Est as (c2 & Er & Est). injection Est as <- <-.
      rewrite Er. cbn [rbind]. apply (IH _ c2 Rl1 Gc1 (Dc1 Dc)); [intros x Hx; apply Inc; right; exact Hx|exact N2|].
      intros x Hx [K|K]; [|exact (Fr x (or_intror Hx) K)]. apply N1. cbn in K. rewrite K. apply in_map. exact Hx. }
    destruct (Run _ [] _ R0 Gr Di (incl_refl _) S3 ltac:(intros p _ [])) as (c' & Ec & Gc & Dc).
    assert (El : layout_change_bin l b = Ok (Ly (ly_id l) b (ly_items l) c')) by (unfold layout_change_bin; rewrite Ec; reflexivity).
    eexists. split; [exact El|]. split; [|split; [reflexivity|exact Dc]]. split; [exact (change_bin_LI BSok cat _ _ _ L Gb El)|]. split; [exact Bf|]. split; [exact Kn|exact Gc].
  Qed.
  Lemma statics_active : forall (b : bin R dtransf), Forall (fun h => h_active h = true) (bin_statics b).
  Proof.
    intros b. rewrite Forall_forall. intros h Hh. unfold bin_statics, bin_hazards in Hh. destruct Hh as [<-|Hh]; [reflexivity|]. apply in_app_or in Hh as [Hh|Hh].
    - apply in_map_iff in Hh as (x & <- & _). reflexivity.
    - apply in_flat_map in Hh as (z & _ & Hh). apply in_map_iff in Hh as (x & <- & _). reflexivity.
  Qed.
  Lemma tolerated_relevant : forall (l : layout) it irr, tolerated l it irr -> relevant_irr (it_quality it) irr.
  Proof.
    intros l it irr Tl e He. apply Tl in He as (_ & k & i & -> & Hq). destruct (it_quality it) as [b|]; [|contradiction]. exists b, k, i. auto.
  Qed.
  Lemma HL_known : forall l, HL l -> known items l.
  Proof.
    intros l (_ & _ & _ & Kn & _) x Hx. unfold placed in Hx. apply in_map_iff in Hx as (p & <- & Hp). rewrite Forall_forall in Kn. exact (Kn p Hp).
  Qed.
  Lemma HL_feasible : forall l it q irr t, HL l -> nth_error items (it_id it) = Some (it, q) -> rigid t -> passes l it irr t ->
    feasible (tr_poly t (it_shape it)) irr (map fact_of (bin_statics (ly_bin l)) ++ map pfact (sm_values (ly_items l))).
  Proof.
    intros l it q irr t H Ni Rt Ps. pose proof H as (L & Bf & _).
    pose proof (passes_feasible M items Gi l it irr t L Bf (HL_known l H) (so_shape _ _ (item_sound _ _ _ Ni)) Rt Ps) as Fe.
    intros f Hf. apply Fe. exact (eq_ind_r (fun x => In f x) Hf (l_facts_eq M items l L)).
  Qed.
  (** the pole of an accepted placement lies in a cell that reaches further left *)
  Context {G : Type} {RG : Rng R G} {X : Extra R}.
  Lemma HL_left : forall l it q g o irr t, HL l -> nth_error items (it_id it) = Some (it, q) -> cde_hpg (ly_cde l) = Ok (Some g) ->
    hsampler_new it (omap (fun x => x) (g_cells (hg_grid g))) (p_bbox (a_obj (bn_outer (ly_bin l)))) = Ok o ->
    tolerated l it irr -> rigid t -> passes l it irr t ->
    exists h b, o = Some h /\ In b (hs_cells h) /\ in_rect b (pole_at t (it_shape it)) /\ x_min b < px (pole_at t (it_shape it)).
  Proof.
    intros l it q g o irr t H Ni Eg Hn Tl Rt Ps. pose proof H as (L & Bf & Nc & Kn & _). destruct (HL_content l H) as (g0 & dim & g' & _ & Eh & F & Sg & Ow).
    assert (g' = g) by congruence. subst g'. pose proof (item_sound _ _ _ Ni) as Si.
    refine (feasible_cell_left M (bin_box (ly_bin l)) (bin_statics (ly_bin l)) _ g0 g dim (bn_outer (ly_bin l)) it o
      (box_proper _ Bf) (statics_active _) (items_grid l L Kn) F Sg Ow _ (good_sound _ (outer_good _ Bf)) _ Hn (so_pole _ _ Si) (proj2 (so_deep _ _ Si)) t irr Rt
      (tolerated_relevant l it irr Tl) (HL_feasible l it q irr t H Ni Rt Ps) (proj1 (so_deep _ _ Si))).
    - left. reflexivity.
    - intros p ((A1 & A2) & (A3 & A4)). apply inflate_sub; [split; split; lra|split; lra].
  Qed.
  Lemma filled_GL : forall l, filled items l -> GL l /\ cfg_cells (bn_cfg (ly_bin l)) <> 0%nat.
  Proof.
    induction 1 as [id b A B C|l id _ (IH & Nc)|l it q d ptr k l' _ (IH & Nc) Ni Nin E|l k b p l' _ (IH & Nc) E|l l' _ (IH & Nc) E|l s l' _ (IH & Nc) E|
      l0 s l1 l l' _ (IH0 & _) Es _ (IH & Nc) Eb E|l b l' _ (IH & _) Gb Bf Nc E].
    - split; [apply GL_new; assumption|exact C].
    - split; [apply GL_clone; exact IH|exact Nc].
    - destruct (GL_place l it q d ptr IH Ni Nin) as (k' & l2 & E' & H' & _). assert (Ee : Ok (k', l2) = Ok (k, l')) by exact (eq_trans (eq_sym E') E). injection Ee as _ <-.
      split; [exact H'|]. rewrite (proj1 (place_bin _ _ _ _ _ _ E)). exact Nc.
    - pose proof E as E1. unfold layout_remove in E1. apply rbind_ok in E1 as ([p0 m] & Er & _). apply expect_ok in Er.
      destruct (GL_remove l k b p0 m IH Er) as (l2 & E' & H' & Eb & _). assert (Ee : Ok (p0, l2) = Ok (p, l')) by exact (eq_trans (eq_sym E') E). injection Ee as _ <-.
      split; [exact H'|]. rewrite Eb. exact Nc.
    - destruct (GL_flush l IH) as (l2 & E' & H' & Eb & _). assert (Ee : Ok l2 = Ok l') by exact (eq_trans (eq_sym E') E). injection Ee as <-.
      split; [exact H'|]. rewrite Eb. exact Nc.
    - destruct (GL_snapshot l IH) as (s2 & l2 & E' & H' & _ & Eb & _). assert (Ee : Ok (s2, l2) = Ok (s, l')) by exact (eq_trans (eq_sym E') E). injection Ee as _ <-.
      split; [exact H'|]. rewrite Eb. exact Nc.
    - destruct (GL_snapshot l0 IH0) as (s2 & l2 & E' & _ & Hs & _). assert (Ee : Ok (s2, l2) = Ok (s, l1)) by exact (eq_trans (eq_sym E') Es). injection Ee as -> _.
      pose proof E as E1. unfold layout_restore in E1. apply rbind_ok in E1 as (u & Eu & _). unfold rassert in Eu. destruct (Nat.eqb_spec (ly_id l) (ls_id s)) as [Ei|]; [|discriminate].
      destruct (GL_restore l s IH Hs Ei Eb) as (l3 & E3 & H3 & Eb3 & _). assert (Ee : Ok l3 = Ok l') by exact (eq_trans (eq_sym E3) E). injection Ee as <-.
      split; [exact H3|]. rewrite Eb3. exact Nc.
    - destruct (GL_change_bin l b IH Gb Bf) as (l2 & E' & H' & Eb & _). assert (Ee : Ok l2 = Ok l') by exact (eq_trans (eq_sym E') E). injection Ee as <-.
      split; [exact H'|]. rewrite Eb. exact Nc.
  Qed.
  Lemma readable : forall (c : cde R dtransf) g, cde_hpg c = Ok (Some g) -> dirtyc c = false.
  Proof. intros c g H. unfold cde_hpg in H. unfold dirtyc. destruct (cd_hpg c) as [g'|]; [|reflexivity]. cbn [expect rbind] in H. destruct (hpg_dirty g'); [discriminate|reflexivity]. Qed.
  Lemma filled_HL : forall l g, filled items l -> cde_hpg (ly_cde l) = Ok (Some g) -> HL l.
  Proof. intros l g H Eg. destruct (filled_GL l H) as (Gl & Nc). exact (GL_HL l Gl Nc (readable _ _ Eg)). Qed.
  (** the search overlooks no placement: a cheaper one can still be drawn *)
  Lemma misses_nothing : forall l it q g o, filled items l -> nth_error items (it_id it) = Some (it, q) -> cde_hpg (ly_cde l) = Ok (Some g) ->
    hsampler_new it (omap (fun x => x) (g_cells (hg_grid g))) (p_bbox (a_obj (bn_outer (ly_bin l)))) = Ok o ->
    forall irr t k, tolerated l it irr -> rigid t -> passes l it irr t -> cost_is (moved t (it_shape it)) k ->
    exists h, o = Some h /\ forall u irr' li n (r : G) s, uniform_loop n (ly_cde l) u irr' li it (Se r h (strip_surrogate (it_shape it)) None []) = Ok s ->
      (exists o best, se_best s = Some (o, best) /\ best <= k) \/
      exists b, In b (hs_cells (se_sampler s)) /\ in_rect b (pole_at t (it_shape it)).
  Proof.
    intros l it q g o Fl Ni Eg Hn irr t k Tl Rt Ps Ck. destruct (HL_left l it q g o irr t (filled_HL l g Fl Eg) Ni Eg Hn Tl Rt Ps) as (h & b & -> & Hb & Ib & _).
    exists h. split; [reflexivity|]. intros u irr' li n r s Es. pose proof (item_sound _ _ _ Ni) as Si.
    destruct (loop_sampled M (ly_cde l) u irr' li it h n _ _ (start_sampled M (ly_cde l) u irr' li it _ _ h r Hn) Es) as [_ _ _ _ S5 _].
    destruct (S5 b Hb) as [K|(po & best & Eb & L)]; [right; eauto|left]. exists po, best. split; [exact Eb|].
    pose proof (cost_floor t _ _ Rt (so_pole _ _ Si) Ck) as Fl'. unfold lost in L. destruct Ib as ((X1 & _) & (Y1 & _)). lra.
  Qed.
End L.
