(** Main results about the proximity grid. *)
From Coq Require Import List Bool Arith Lia Permutation Sorted.
From Verif Require Import Base Num GeoModel HazardModel QTModel TransfModel HpgModel CdeModel BaseProofs CdeSpec CdeOpsProofs CdeHistProofs GeoSpec ParityProofs
  GeoPrimProofs PlaceSpec HpgSpec HpgGridProofs HpgFillProofs HpgCellProofs HpgRegProofs HpgHistProofs HpgGenProofs.
From Coq Require Import Reals Lra.
From Verif Require Import GeoModel HazardModel QTModel TransfModel HpgModel CdeModel CdeSpec GeoSpec PlaceSpec HpgSpec.
Import ListNotations.
Local Open Scope R_scope.

Section Thm.
  Context {D : Type} {ED : EqD D} {BS : BSearch}.
  Hypothesis BSok : bsearch_ok BS.
  Variable M : R.
  #[local] Instance NMt : Num R := RNumT Reqb M.
  Local Notation cell := (cell R D).
  Local Notation hazard := (hazard R D).
  Local Notation fact := (CdeSpec.fact R D).
  Local Notation grid := (grid R cell).

  Lemma pending_cons : forall (o : op R D) r d, pending (o :: r) d = pending r (pending [o] d).
  Proof. intros [h|e [|]| | | |k] r d; reflexivity. Qed.

  Lemma run_grid : forall lvl bb shp st g0 rad, grid_wf g0 -> 0 <= rad -> forall ops c sn a,
    related lvl bb shp st c sn a -> ops_ok shp st a ops -> Forall grid_op ops -> cok bb shp g0 rad c sn ->
    exists c' sn', rfold step ops (c, sn) = Ok (c', sn') /\ related lvl bb shp st c' sn' (fold_left astep ops a) /\ cok bb shp g0 rad c' sn' /\
      dirtyc c' = pending ops (dirtyc c) /\ (lowc c sn -> settles (c, sn) ops -> lowc c' sn').
  Proof.
    intros lvl bb shp st g0 rad W Hr. induction ops as [|o ops IH]; intros c sn a Rel V Go C; cbn [rfold ops_ok fold_left] in *.
    - exists c, sn. auto 6.
    - destruct V as (V1 & V2). inversion Go as [|? ? Go1 Go2]; subst.
      destruct (step_grid BSok M lvl bb shp st g0 rad c sn a o W Hr Rel V1 Go1 C) as (c1 & sn1 & E & C1 & Di & Lo).
      assert (E' : step (c, sn) o = Ok (c1, sn1)) by exact E. rewrite E'. cbn [rbind].
      destruct (IH c1 sn1 (astep a o)) as (c' & sn' & F & Rel' & C' & Di' & Lo'); auto.
      { eapply (step_related BSok); eassumption. }
      exists c', sn'. split; [exact F|]. split; [exact Rel'|]. split; [exact C'|]. split.
      + rewrite Di', Di. symmetry. apply pending_cons.
      + intros L S. cbn [settles] in S. destruct (S _ E') as (S1 & S2). apply Lo'; [|exact S2]. apply Lo; [exact L|].
        destruct o; cbn [settled_op]; auto.
  Qed.

  (** the engine and its grid after a history *)
  Lemma engine_grid : forall bb sts depth n ops c0, n <> 0%nat -> proper bb -> sound_statics sts -> valid sts ops -> Forall grid_op ops ->
    cde_new bb sts depth n = Ok c0 ->
    exists g0 dim c sn shp, fresh M bb sts dim g0 /\ engine bb sts depth n ops = Ok (c, sn) /\
      related depth bb shp sts c sn (fold_left astep ops ([], [])) /\ cok bb shp (hg_grid g0) (half_diag dim) c sn /\
      dirtyc c = pending ops false /\ (settles (c0, []) ops -> lowc c sn) /\ cd_hpg c0 = Some g0.
  Proof.
    intros bb sts depth n ops c0 Nn Pb So (Sok & shp & V) Go E0.
    destruct (cde_new_ok BSok depth bb sts n (proj1 Sok) (proj2 Sok)) as (qt & E' & R').
    pose proof (new_related BSok depth bb shp sts n c0 Sok E0) as Rel.
    rewrite E' in E0. apply rbind_ok in E0 as (og & Eg & E0). injection E0 as <-.
    destruct n as [|n]; [congruence|]. apply rbind_ok in Eg as (g0 & Eg & Eo). injection Eo as <-.
    destruct (hpg_new_ok BSok M bb sts (S n) g0 Pb So Eg) as (dim & F).
    assert (C0 : cok bb shp (hg_grid g0) (half_diag dim) (Cde qt sts [] (Some g0) bb []) []).
    { split; [|repeat split; constructor]. exists g0. split; [reflexivity|]. split; [apply F|apply F|apply same_grid_refl| |].
      - intros i c Hc. left. apply (fr_cells _ _ _ _ _ F i c Hc).
      - intros i c Hc. left. apply (fr_cells _ _ _ _ _ F i c Hc). }
    assert (R0 : 0 <= half_diag dim) by apply sqrt_pos.
    destruct (run_grid depth bb shp sts (hg_grid g0) (half_diag dim) (fr_wf _ _ _ _ _ F) R0 ops _ [] ([], []) Rel V Go C0) as (c & sn & Er & Rel' & C' & Di & Lo).
    exists g0, dim, c, sn, shp. split; [exact F|]. split; [unfold engine; rewrite E'; rewrite Eg; cbn [rbind]; exact Er|].
    split; [exact Rel'|]. split; [exact C'|]. split; [|split; [|reflexivity]].
    - rewrite Di. f_equal. unfold dirtyc. cbn [cd_hpg]. apply dirty_nil, F.
    - intros S. apply Lo; [|exact S]. split; [|constructor]. intros g [= <-]. cbn [cd_dyn map]. intros i c1 Hc1.
      destruct (fr_cells _ _ _ _ _ F i c1 Hc1) as (_ & Eu & _). split; [rewrite Eu; lra|]. intros f k [].
  Qed.

  (** C08 with a grid *)
  Lemma grid_no_panic : forall bb sts depth n ops c0, proper bb -> sound_statics sts -> valid sts ops -> Forall grid_op ops ->
    cde_new bb sts depth n = Ok c0 -> exists c sn, engine bb sts depth n ops = Ok (c, sn).
  Proof.
    intros bb sts depth [|n] ops c0 Pb So V Go E0.
    - destruct V as (Sok & shp & V). apply (engine_total BSok depth bb shp sts ops Sok V).
    - destruct (engine_grid bb sts depth (S n) ops c0) as (g0 & dim & c & sn & shp & _ & E & _); auto. eauto.
  Qed.

  Lemma engine_grid' : forall bb sts depth n ops c sn, n <> 0%nat -> proper bb -> sound_statics sts -> valid sts ops -> Forall grid_op ops ->
    engine bb sts depth n ops = Ok (c, sn) ->
    exists c0 g0 dim shp g, cde_new bb sts depth n = Ok c0 /\ fresh M bb sts dim g0 /\ cd_hpg c = Some g /\
      gok bb shp (hg_grid g0) (half_diag dim) (dynamic_facts ops) g /\ hpg_dirty g = pending ops false /\
      (settles (c0, []) ops -> all_cells (low_cell (dynamic_facts ops)) (hg_grid g)) /\ cd_hpg c0 = Some g0.
  Proof.
    intros bb sts depth n ops c sn Nn Pb So V Go E. pose proof E as E1. unfold engine in E1. apply rbind_ok in E1 as (c0 & E0 & _).
    destruct (engine_grid bb sts depth n ops c0) as (g0 & dim & c' & sn' & shp & F & E2 & Rel & C & Di & Lo & Q0); auto.
    rewrite E in E2. injection E2 as <- <-. destruct C as ((g & Eg & G) & _).
    exists c0, g0, dim, shp, g. split; [exact E0|]. split; [exact F|]. split; [exact Eg|].
    pose proof (rl_facts _ _ _ _ _ _ _ Rel) as P.
    split; [eapply gok_perm; [exact P|exact G]|]. split; [|split; [|exact Q0]].
    - rewrite <- Di. unfold dirtyc. rewrite Eg. reflexivity.
    - intros S. destruct (Lo S) as (L1 & _). intros i ce Hc. eapply low_perm; [exact P|]. apply (L1 g Eg i ce Hc).
  Qed.

  (** C30: reading is refused exactly while a deferred removal is pending *)
  Lemma grid_dirty : forall bb sts depth n ops c sn, n <> 0%nat -> proper bb -> sound_statics sts -> valid sts ops -> Forall grid_op ops ->
    engine bb sts depth n ops = Ok (c, sn) ->
    exists g, cd_hpg c = Some g /\ cde_hpg c = Ok (if pending ops false then None else Some g).
  Proof.
    intros. destruct (engine_grid' bb sts depth n ops c sn) as (c0 & g0 & dim & shp & g & _ & _ & Eg & _ & Di & _); auto.
    exists g. split; [exact Eg|]. unfold cde_hpg. rewrite Eg. cbn [expect rbind]. rewrite Di. reflexivity.
  Qed.
  Lemma clean_grid : forall bb sts depth n ops c sn g, n <> 0%nat -> proper bb -> sound_statics sts -> valid sts ops -> Forall grid_op ops ->
    engine bb sts depth n ops = Ok (c, sn) -> cde_hpg c = Ok (Some g) ->
    exists c0 g0 dim shp, cde_new bb sts depth n = Ok c0 /\ fresh M bb sts dim g0 /\ gok bb shp (hg_grid g0) (half_diag dim) (dynamic_facts ops) g /\ hg_unc g = [] /\
      (settles (c0, []) ops -> all_cells (low_cell (dynamic_facts ops)) (hg_grid g)).
  Proof.
    intros bb sts depth n ops c sn g Nn Pb So V Go E H. destruct (engine_grid' bb sts depth n ops c sn) as (c0 & g0 & dim & shp & g' & E0 & F & Eg & G & Di & Lo & _); auto.
    unfold cde_hpg in H. rewrite Eg in H. cbn [expect rbind] in H. destruct (hpg_dirty g') eqn:Ed; [discriminate|]. injection H as <-.
    exists c0, g0, dim, shp. split; [exact E0|]. split; [exact F|]. split; [exact G|]. split; [|exact Lo].
    unfold hpg_dirty in Ed. destruct (hg_unc g'); [reflexivity|discriminate].
  Qed.
  Lemma grid_owned : forall bb sts depth n ops c sn g, n <> 0%nat -> proper bb -> sound_statics sts -> valid sts ops -> Forall grid_op ops ->
    engine bb sts depth n ops = Ok (c, sn) -> cde_hpg c = Ok (Some g) -> every_cell (owned_cell [] (dynamic_facts ops)) (hg_grid g).
  Proof.
    intros. destruct (clean_grid bb sts depth n ops c sn g) as (c0 & g0 & dim & shp & _ & _ & [G1 G2 G3 G4 G5] & Eu & _); auto.
    apply every_all. rewrite Eu in G4. exact G4.
  Qed.
  Lemma grid_exact : forall bb sts depth n ops c0 c sn g, n <> 0%nat -> proper bb -> sound_statics sts -> valid sts ops -> Forall grid_op ops ->
    cde_new bb sts depth n = Ok c0 -> settles (c0, []) ops ->
    engine bb sts depth n ops = Ok (c, sn) -> cde_hpg c = Ok (Some g) -> every_cell (exact_cell (dynamic_facts ops)) (hg_grid g).
  Proof.
    intros bb sts depth n ops c0 c sn g Nn Pb So V Go E0 Se E H. destruct (clean_grid bb sts depth n ops c sn g) as (c0' & g0 & dim & shp & E0' & _ & [G1 G2 G3 G4 G5] & Eu & Lo); auto.
    rewrite E0 in E0'. injection E0' as <-. apply every_all. rewrite Eu in G4. intros i ce Hc. split; [apply (G4 i ce Hc)|apply (Lo Se i ce Hc)].
  Qed.
  (** the static part never changes *)
  Lemma grid_static : forall bb sts depth n ops c sn g, n <> 0%nat -> proper bb -> sound_statics sts -> valid sts ops -> Forall grid_op ops ->
    engine bb sts depth n ops = Ok (c, sn) -> cd_hpg c = Some g -> every_cell (static_cell M sts) (hg_grid g).
  Proof.
    intros bb sts depth n ops c sn g Nn Pb So V Go E H. destruct (engine_grid' bb sts depth n ops c sn) as (c0 & g0 & dim & shp & g' & _ & F & Eg & [G1 G2 G3 G4 G5] & _); auto.
    rewrite Eg in H. injection H as <-. apply every_all. intros i ce Hc. destruct G3 as (_ & _ & _ & G3). specialize (G3 i). rewrite Hc in G3.
    destruct (cell_at (hg_grid g0) i) as [c1|] eqn:E1; [|contradiction]. destruct (fr_cells _ _ _ _ _ F i c1 E1) as ([S1 S2 S3 S4 S5] & _).
    destruct G3 as (Q1 & Q2 & Q3 & Q4 & Q5). split; rewrite ?Q1, ?Q2, ?Q3, ?Q4, ?Q5; assumption.
  Qed.

  (** *** C31 *)
  Lemma proximity_ok : forall (c : cell) q p, hazard_proximity c q = Ok p ->
    p = fst (c_uni c) \/ exists k, nth_error (c_qz c) k = Some p /\ match q with Some b => (k < b)%nat | None => True end.
  Proof.
    intros c q p H. unfold hazard_proximity in H. set (n := match q with Some k => k | None => N_QUALITIES end) in *.
    assert (K : forall l a p, rfold (fun p k => z <- expect (nth_error (c_qz c) k) ;; Ok (fmin p z)) l a = Ok p -> p = a \/ exists k, In k l /\ nth_error (c_qz c) k = Some p).
    { clear. induction l as [|k l IH]; intros a p H; cbn [rfold] in H; [injection H as <-; auto|].
      apply rbind_ok in H as (a1 & E1 & H). apply rbind_ok in E1 as (z & Ez & E1). injection E1 as <-.
      destruct (IH _ _ H) as [ -> |(k' & Hk & Ek)]; [|right; exists k'; split; [right; exact Hk|exact Ek]].
      cbn [fmin NMt RNumT]. unfold Rmin. destruct (Rle_dec a z); [left; reflexivity|]. right. exists k. split; [left; reflexivity|].
      destruct (nth_error (c_qz c) k); [|discriminate]. injection Ez as ->. reflexivity. }
    destruct (K _ _ _ H) as [ -> |(k & Hk & Ek)]; [left; reflexivity|]. right. exists k. split; [exact Ek|]. destruct q; [|exact I].
    apply in_seq in Hk. unfold n in Hk. lia.
  Qed.

  (** the quality zones an item of base quality [q] must avoid are kept *)

  Lemma dyn_from : forall (ops : list (op R D)) f, In f (dynamic_facts ops) -> exists h, In (OReg h) ops /\ f = fact_of h.
  Proof.
    intros ops. assert (K : forall l (a : list fact * list (list fact)), incl l ops ->
      (forall f, In f (fst a) -> exists h, In (OReg h) ops /\ f = fact_of h) -> (forall A f, In A (snd a) -> In f A -> exists h, In (OReg h) ops /\ f = fact_of h) ->
      forall f, In f (fst (fold_left astep l a)) -> exists h, In (OReg h) ops /\ f = fact_of h).
    { induction l as [|o l IH]; intros [A sv] Il Ha Hs; cbn [fold_left]; [exact Ha|].
      assert (Il' : incl l ops) by (intros x Hx; apply Il; right; exact Hx). assert (Io : In o ops) by (apply Il; left; reflexivity).
      destruct o as [h|e b| | | |k]; cbn [astep fst snd] in *; apply IH; cbn [fst snd]; auto.
      - intros f [<-|Hf]; [exists h; auto|apply Ha; exact Hf].
      - intros f Hf. apply filter_In in Hf. apply Ha. apply Hf.
      - intros A' f HA Hf. apply in_app_or in HA as [HA|[<-|[]]]; [eapply Hs; eassumption|apply Ha; exact Hf].
      - intros f Hf. destruct (nth_in_or_default k sv []) as [Hn|Hn]; [eapply Hs; eassumption|rewrite Hn in Hf; destruct Hf]. }
    intros f Hf. apply (K ops ([], [])); [apply incl_refl|intros g []|intros A g []|exact Hf].
  Qed.
  Lemma gap_point : forall k p, 0 <= crad k -> exists x, in_disk k x /\ edist p x = gap k p.
  Proof.
    intros k p Hk. unfold gap. destruct (Rle_lt_dec (edist p (ccen k)) (crad k)) as [L|L].
    - exists p. rewrite Rmax_left by lra. split; [exact L|apply edist_refl].
    - rewrite Rmax_right by lra. destruct (walk p (ccen k) (edist p (ccen k) - crad k)) as (x & A & B & _); [lra|]. exists x. split; [unfold in_disk; rewrite B; lra|exact A].
  Qed.

  (** a cell that is discarded holds no place for the item, whatever led to this state of the grid *)
  Lemma discard_state : forall sts (A : list fact) ce r q, Forall (fun h => h_active h = true) sts ->
    (forall f, In f A -> exists h, f = fact_of h /\ grid_hazard h /\ poles_inside (a_obj (h_shape h))) ->
    owned_cell [] A ce -> static_cell M sts ce -> could_accommodate ce r q = Ok false -> r < M ->
    forall s irr p, relevant_irr q irr -> in_rect (c_bbox' ce) p -> (forall x, edist x p <= r -> region (p_pts s) x) ->
    ~ feasible s irr (map fact_of sts ++ A).
  Proof.
    intros sts A ce r q Ac Dy Ow [S1 S2 S3 S4 S5] Acc Rm s irr p Ir Hp Dk Fe.
    unfold could_accommodate in Acc. destruct (flt r (c_rad ce)) eqn:Fl; [discriminate|]. apply rbind_ok in Acc as (px' & Epx & Acc). injection Acc as Acc.
    cbn [flt fadd NMt RNumT] in Acc, Fl. unfold Rltb in *. destruct (Rlt_dec r (px' + c_rad ce)) as [L|L]; [discriminate|]. clear Acc Fl.
    pose proof (S2 p Hp) as Dp.
    assert (Pos : 0 <= c_rad ce) by (pose proof (edist_nonneg p (c_cen ce)); lra).
    (* a relevant hazard with a blocked point at distance px' *)
    assert (W : exists f x, In f (map fact_of sts ++ A) /\ f_act f = true /\ ~ In (f_ent f) irr /\ blocked f x /\ edist (c_cen ce) x <= px').
    { assert (Un : forall f : fact, ent_universal (f_ent f) = true -> ~ In (f_ent f) irr).
      { intros f U K. destruct (Ir _ K) as (k & z & i & _ & Q & _). rewrite Q in U. discriminate. }
      destruct (proximity_ok ce q px' Epx) as [ -> |(k & Ek & Lk)].
      - destruct Ow as [O|[[]|(f & k & Hf & Ef & Hk & Ev)]].
        + rewrite O in *. destruct S3 as (_ & [B|(h & Hh & U & (x & Bx & Dx) & _)] & _); [exfalso; lra|].
          exists (fact_of h), x. split; [apply in_or_app; left; apply in_map; exact Hh|]. rewrite Forall_forall in Ac.
          split; [apply Ac; exact Hh|]. split; [apply Un; exact U|]. split; [exact Bx|lra].
        + destruct (Dy f Hf) as (h & -> & (P & U & Ah & (u & Eu & _ & Rk & _) & _) & Pi).
          assert (Hk' : In k (s_poles u)) by (unfold poles_of in Hk; change (f_poly (fact_of h)) with (a_obj (h_shape h)) in Hk; rewrite Eu in Hk; exact Hk).
          destruct (gap_point k (c_cen ce) (Rk k Hk')) as (x & Ix & Dx). exists (fact_of h), x.
          split; [apply in_or_app; right; exact Hf|]. split; [exact Ah|]. split; [apply Un; exact U|]. split; [|rewrite Ev; lra].
          unfold blocked. change (f_ent (fact_of h)) with (h_ent h). rewrite P. apply (Pi k x); [exact Hk|exact Ix].
      - destruct (S5 k px' Ek) as (_ & [B|(h & Hh & (i & U) & (x & Bx & Dx) & _)] & _); [exfalso; lra|].
        exists (fact_of h), x. split; [apply in_or_app; left; apply in_map; exact Hh|]. rewrite Forall_forall in Ac.
        split; [apply Ac; exact Hh|]. split; [|split; [exact Bx|lra]]. intros K. destruct (Ir _ K) as (b & z & i' & -> & Q & Lb).
        change (f_ent (fact_of h)) with (h_ent h) in Q. rewrite U in Q. injection Q as -> ->. lia. }
    destruct W as (f & x & Hf & Af & Nf & Bx & Dx). apply (Fe f Hf Af Nf x); [|exact Bx]. apply Dk.
    pose proof (edist_tri x (c_cen ce) p) as Tr. rewrite (edist_sym x (c_cen ce)), (edist_sym (c_cen ce) p) in Tr. lra.
  Qed.
  Lemma same_static : forall bb sts dim g0 (gr : grid), fresh M bb sts dim g0 -> same_grid (hg_grid g0) gr -> all_cells (static_cell M sts) gr.
  Proof.
    intros bb sts dim g0 gr F G3 i ce Hc. destruct G3 as (_ & _ & _ & G3). specialize (G3 i). rewrite Hc in G3.
    destruct (cell_at (hg_grid g0) i) as [c1|] eqn:E1; [|contradiction]. destruct (fr_cells _ _ _ _ _ F i c1 E1) as ([S1 S2 S3 S4 S5] & _).
    destruct G3 as (Q1 & Q2 & Q3 & Q4 & Q5). split; rewrite ?Q1, ?Q2, ?Q3, ?Q4, ?Q5; assumption.
  Qed.
  Lemma discard_ok : forall bb sts depth n ops c sn g, n <> 0%nat -> proper bb -> sound_statics sts -> valid sts ops -> Forall grid_op ops ->
    (forall h, In (OReg h) ops -> poles_inside (a_obj (h_shape h))) -> Forall (fun h => h_active h = true) sts ->
    engine bb sts depth n ops = Ok (c, sn) -> cde_hpg c = Ok (Some g) ->
    forall ce r q, In (Some ce) (g_cells (hg_grid g)) -> could_accommodate ce r q = Ok false -> r < M ->
    forall s irr p, relevant_irr q irr -> in_rect (c_bbox' ce) p -> (forall x, edist x p <= r -> region (p_pts s) x) ->
    ~ feasible s irr (facts sts ops).
  Proof.
    intros bb sts depth n ops c sn g Nn Pb So V Go Dy Ac E H ce r q Hce Acc Rm.
    assert (Eg : cd_hpg c = Some g).
    { unfold cde_hpg in H. destruct (cd_hpg c) as [g'|]; [|discriminate]. cbn [expect rbind] in H. destruct (hpg_dirty g'); [discriminate|]. congruence. }
    apply (discard_state sts (dynamic_facts ops) ce r q Ac); [|exact (grid_owned bb sts depth n ops c sn g Nn Pb So V Go E H ce Hce)|
      exact (grid_static bb sts depth n ops c sn g Nn Pb So V Go E Eg ce Hce)|exact Acc|exact Rm].
    intros f Hf. destruct (dyn_from ops f Hf) as (h & Hh & ->). exists h. rewrite Forall_forall in Go. split; [reflexivity|]. split; [exact (Go _ Hh)|exact (Dy h Hh)].
  Qed.
End Thm.
