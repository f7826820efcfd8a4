(** The proximity grid along histories of the engine. *)
From Coq Require Import List Bool Arith Lia Permutation Sorted.
From Verif Require Import Base Num GeoModel HazardModel QTModel TransfModel HpgModel CdeModel BaseProofs CdeSpec CdeOpsProofs CdeHistProofs GeoSpec ParityProofs
  GeoPrimProofs PlaceSpec HpgSpec HpgGridProofs HpgFillProofs HpgCellProofs HpgRegProofs.
From Coq Require Import Reals Lra.
From Verif Require Import GeoModel HazardModel QTModel TransfModel HpgModel CdeModel CdeSpec GeoSpec PlaceSpec HpgSpec.
Import ListNotations.
Local Open Scope R_scope.

Section GH.
  Context {D : Type} {ED : EqD D} {BS : BSearch}.
  Hypothesis BSok : bsearch_ok BS.
  Variable M : R.
  #[local] Instance NMh : Num R := RNumT Reqb M.
  Local Notation cell := (cell R D).
  Local Notation hazard := (hazard R D).
  Local Notation fact := (CdeSpec.fact R D).
  Local Notation grid := (grid R cell).
  Variable lvl : nat.
  Variable bb : rect R.
  Variable shp : entity D -> poly R * bool.
  Variable st : list hazard.
  Local Notation related := (@related R NMh D lvl bb shp st).

  Lemma every_all : forall (P : cell -> Prop) (g : grid), every_cell P g <-> all_cells P g.
  Proof.
    intros P g. unfold every_cell, all_cells, cell_at. split.
    - intros H i c E. apply H. destruct (nth_error (g_cells g) i) as [o|] eqn:Ei; [|discriminate]. subst o. eapply nth_error_In. exact Ei.
    - intros H c Hc. apply In_nth_error in Hc as (i & Ei). apply (H i c). rewrite Ei. reflexivity.
  Qed.

  (** the grid's state, and that of the snapshots *)
  Record gok (g0 : grid) (rad : R) (A : list fact) (g : hpg R D) : Prop := {
    go_rad : hg_rad g = rad; go_box : hg_bbox g = bb;
    go_same : same_grid g0 (hg_grid g);
    go_own : all_cells (owned_cell (hg_unc g) A) (hg_grid g);
    go_real : all_cells (real_cell shp) (hg_grid g) }.
  Definition snok (g0 : grid) (s : snapshot R D) : Prop :=
    exists gr, sn_grid s = Some gr /\ same_grid g0 gr /\ all_cells (owned_cell [] (map fact_of (sn_dyn s))) gr /\ all_cells (real_cell shp) gr.
  Definition cok (g0 : grid) (rad : R) (c : cde R D) (sn : list (snapshot R D)) : Prop :=
    (exists g, cd_hpg c = Some g /\ gok g0 rad (map fact_of (cd_dyn c)) g) /\ Forall (snok g0) sn /\
    Forall grid_hazard (cd_dyn c) /\ Forall grid_hazard (cd_unc c) /\ Forall (fun s => Forall grid_hazard (sn_dyn s)) sn.

  Lemma grid_probed : forall l : list hazard, Forall grid_hazard l -> probed_facts (map fact_of l).
  Proof.
    intros l H f Hf. apply in_map_iff in Hf as (h & <- & Hh). rewrite Forall_forall in H. destruct (H h Hh) as (A & _ & B & C & _). auto.
  Qed.
  Lemma denotes_facts : forall l : list hazard, Forall (denotes shp) l -> Forall (fun f => shp (f_ent f) = (f_poly f, f_act f)) (map fact_of l).
  Proof. intros l H. apply Forall_forall. intros f Hf. apply in_map_iff in Hf as (h & <- & Hh). rewrite Forall_forall in H. exact (H h Hh). Qed.
  Lemma owned_perm : forall unc (A A' : list fact) (c : cell), Permutation A A' -> owned_cell unc A c -> owned_cell unc A' c.
  Proof. intros unc A A' c P. apply owned_mono; [apply incl_refl|]. intros x Hx. eapply Permutation_in; eassumption. Qed.

  (** registering *)
  Lemma gok_register : forall g0 rad A g (h : hazard), grid_wf g0 -> 0 <= rad -> gok g0 rad A g -> grid_hazard h -> denotes shp h ->
    exists g', hpg_register g h = Ok g' /\ gok g0 rad (fact_of h :: A) g' /\ hg_unc g' = hg_unc g /\
      (all_cells (low_cell A) (hg_grid g) -> settled (a_obj (h_shape h)) g' -> all_cells (low_cell (fact_of h :: A)) (hg_grid g')).
  Proof.
    intros g0 rad A g h W Hr [G1 G2 G3 G4 G5] (P & _ & Ac & Pr & Bx & By) Dh.
    destruct (hpg_register_grid BSok M g h) as (gr & E & Sg & L).
    { eapply same_grid_wf; eassumption. } { rewrite G1. exact Hr. } { exact P. } { exact Pr. } { split; assumption. }
    exists (hset g gr). split; [exact E|].
    assert (Back : forall i c', cell_at gr i = Some c' -> exists c, cell_at (hg_grid g) i = Some c /\ same_frame c c').
    { intros i c' Ec'. destruct Sg as (_ & _ & _ & Sg). specialize (Sg i). rewrite Ec' in Sg. destruct (cell_at (hg_grid g) i) as [c|]; [|contradiction]. eauto. }
    assert (Hf : In (fact_of h) (fact_of h :: A)) by (left; reflexivity).
    split; [|split; [reflexivity|]].
    - split; [exact G1|exact G2|eapply same_grid_trans; eassumption| |].
      + intros i c' Ec'. destruct (Back i c' Ec') as (c & Ec & _). destruct (L i c c' Ec Ec') as (_ & [ -> | (k & Hk & -> & _)]).
        * apply (owned_mono (hg_unc g) (hg_unc g) A); [apply incl_refl|apply incl_tl, incl_refl|]. apply (G4 i). exact Ec.
        * right. right. exists (fact_of h), k. auto.
      + intros i c' Ec'. destruct (Back i c' Ec') as (c & Ec & _). destruct (L i c c' Ec Ec') as (_ & [ -> | (k & Hk & -> & _)]); [apply (G5 i); exact Ec|].
        right. exists k. cbn. split; [|reflexivity]. unfold denotes in Dh. rewrite Dh. exact Hk.
    - intros Lo St i c' Ec'. destruct (Back i c' Ec') as (c & Ec & Fr). destruct (L i c c' Ec Ec') as (Le & _). destruct (Lo i c Ec) as [L1 L2].
      destruct Fr as (F1 & F2 & _). split; [rewrite F2; lra|]. intros f k [<-|Hf'] Hk.
      + apply every_all in St. apply (St i c' Ec'). exact Hk.
      + rewrite F1. specialize (L2 f k Hf' Hk). lra.
  Qed.

  (** removing *)
  Lemma gok_deregister : forall g0 rad A g (dereg : list (entity D)) unc (hs : list hazard), grid_wf g0 -> gok g0 rad A g ->
    Forall grid_hazard hs -> Forall (denotes shp) hs -> incl (map fact_of hs) A ->
    (forall f, In f A -> In (f_ent f) dereg \/ In f (map fact_of hs)) -> incl (hg_unc g) (dereg ++ unc) ->
    exists gr, on_cells (cell_deregister dereg hs) (hg_grid g) = Ok gr /\ gok g0 rad (map fact_of hs) (Hpg (hg_bbox g) gr (hg_rad g) unc) /\
      (all_cells (low_cell A) (hg_grid g) -> all_cells (low_cell (map fact_of hs)) gr).
  Proof.
    intros g0 rad A g dereg unc hs W [G1 G2 G3 G4 G5] Gh Dh Sub Rem Inc.
    destruct (on_cells_ok (cell_deregister dereg hs) (hg_grid g)
      (fun c c' => owned_cell unc (map fact_of hs) c' /\ real_cell shp c' /\ (low_cell A c -> low_cell (map fact_of hs) c'))) as (gr & E & Sg & Pc).
    { intros i c Ec.
      destruct (cell_deregister_ok M c dereg unc hs A (grid_probed hs Gh) Sub Rem) as (c' & E' & Fr & O' & L').
      { apply (owned_mono (hg_unc g) (dereg ++ unc) A A); [exact Inc|apply incl_refl|apply (G4 i); exact Ec]. }
      exists c'. split; [exact E'|]. split; [|exact Fr]. split; [exact O'|]. split; [|exact L'].
      unfold cell_deregister in E'. destruct (memb ent_eqb (snd (c_uni c)) dereg) eqn:Mb.
      - destruct (rebuild_ok M c hs (grid_probed hs Gh)) as (c2 & E2 & _ & O2 & _).
        assert (c2 = c'). { enough (Ok c2 = Ok c') by congruence. rewrite <- E2, <- E'. reflexivity. } subst c2.
        eapply owned_real; [apply denotes_facts; exact Dh|exact O2].
      - injection E' as <-. apply (G5 i). exact Ec. }
    exists gr. split; [exact E|]. split.
    - split; cbn [hg_rad hg_bbox hg_unc hg_grid]; [exact G1|exact G2|eapply same_grid_trans; eassumption| |];
        intros i c' Ec'; destruct (Pc i c' Ec') as (c & Ec & A1 & A2 & A3); assumption.
    - intros Lo i c' Ec'. destruct (Pc i c' Ec') as (c & Ec & A1 & A2 & A3). apply A3, (Lo i), Ec.
  Qed.

  Lemma gok_perm : forall g0 rad A A' g, Permutation A A' -> gok g0 rad A g -> gok g0 rad A' g.
  Proof. intros g0 rad A A' g P [G1 G2 G3 G4 G5]. split; auto. intros i c Ec. eapply owned_perm; [exact P|apply (G4 i); exact Ec]. Qed.

  Lemma gok_flush : forall g0 rad g (hs : list hazard), grid_wf g0 -> gok g0 rad (map fact_of hs) g ->
    Forall grid_hazard hs -> Forall (denotes shp) hs ->
    exists g', hpg_flush g hs = Ok g' /\ gok g0 rad (map fact_of hs) g' /\ hg_unc g' = [] /\
      (all_cells (low_cell (map fact_of hs)) (hg_grid g) -> all_cells (low_cell (map fact_of hs)) (hg_grid g')).
  Proof.
    intros g0 rad g hs W G Gh Dh. unfold hpg_flush, hpg_dirty. destruct (hg_unc g) as [|e unc] eqn:Eu.
    - exists g. auto.
    - cbv match. rewrite <- Eu.
      destruct (gok_deregister g0 rad (map fact_of hs) g (hg_unc g) [] hs W G Gh Dh) as (gr & E & G' & L).
      { apply incl_refl. } { auto. } { rewrite app_nil_r. apply incl_refl. }
      rewrite E. cbn [rbind]. eexists. split; [reflexivity|]. split; [exact G'|]. split; [reflexivity|exact L].
  Qed.

  (** one operation: no panic, the grid stays sound *)
  Definition lowc (c : cde R D) (sn : list (snapshot R D)) : Prop :=
    (forall g, cd_hpg c = Some g -> all_cells (low_cell (map fact_of (cd_dyn c))) (hg_grid g)) /\
    Forall (fun s => forall gr, sn_grid s = Some gr -> all_cells (low_cell (map fact_of (sn_dyn s))) gr) sn.
  Definition dirtyc (c : cde R D) : bool := match cd_hpg c with Some g => hpg_dirty g | None => false end.
  Definition settled_op (o : op R D) (c' : cde R D) : Prop :=
    match o with OReg h => forall g, cd_hpg c' = Some g -> settled (a_obj (h_shape h)) g | _ => True end.
  Definition next_dirty (o : op R D) (d : bool) : bool := pending [o] d.

  Lemma low_perm : forall (A A' : list fact) (c : cell), Permutation A A' -> low_cell A c -> low_cell A' c.
  Proof. intros A A' c P. apply low_mono. intros x Hx. eapply Permutation_in; [symmetry; exact P|exact Hx]. Qed.
  Lemma dirty_nil : forall g : hpg R D, hg_unc g = [] -> hpg_dirty g = false.
  Proof. intros g E. unfold hpg_dirty. rewrite E. reflexivity. Qed.

  Lemma step_grid : forall g0 rad c sn a o, grid_wf g0 -> 0 <= rad -> related c sn a -> op_ok shp st a o -> grid_op o ->
    cok g0 rad c sn -> exists c' sn', step (c, sn) o = Ok (c', sn') /\ cok g0 rad c' sn' /\
      dirtyc c' = next_dirty o (dirtyc c) /\ (lowc c sn -> settled_op o c' -> lowc c' sn').
  Proof.
    intros g0 rad c sn [A sv] o W Hr [I Es P Coh Sn So] V Go ((g & Eg & G) & Cs & Gd & Gu & Gs). cbn [fst snd] in *.
    pose proof (perm_ents _ _ P) as Pe. apply Forall_app in Coh as (Cd & Cu).
    destruct o as [h|e b| | | |k]; cbn [step op_ok grid_op settled_op] in *.
    - destruct V as (Wh & Dh & N1 & N2).
      destruct (cde_register_ok BSok lvl bb c h I) as (qt & unc & h' & E & R' & Hh').
      { exact Wh. }
      { rewrite Es. unfold ents. rewrite map_app. intros X. apply in_app_or in X as [X|X]; [contradiction|].
        apply N2. eapply Permutation_in; [exact Pe|exact X]. }
      rewrite E, Eg. cbn [opt_hpg].
      assert (Hh : denotes shp h' /\ grid_hazard h' /\ Forall grid_hazard unc /\ fact_of h' = fact_of h).
      { destruct Hh' as [(-> & -> & _)|(Ee & Pm)]; [auto|].
        assert (Cu' := Permutation_Forall Pm Cu). assert (Gu' := Permutation_Forall Pm Gu). inversion Cu'; inversion Gu'; subst.
        split; [assumption|]. split; [assumption|]. split; [assumption|].
        rewrite (denotes_fact shp h'), (denotes_fact shp h), Ee by assumption. reflexivity. }
      destruct Hh as (Dh' & Gh' & Gu' & Ef).
      destruct (gok_register g0 rad _ g h' W Hr G Gh' Dh') as (g' & Er & G' & Eu & L). rewrite Er. cbn [rbind].
      assert (Pd : Permutation (fact_of h' :: map fact_of (cd_dyn c)) (map fact_of (cd_dyn c ++ [h']))).
      { rewrite map_app. apply Permutation_cons_append. }
      eexists. eexists. split; [reflexivity|]. split; [|split].
      + split; [|split; [exact Cs|cbn [cd_dyn cd_unc]; split; [apply Forall_app; split; [exact Gd|constructor; auto]|split; [exact Gu'|exact Gs]]]].
        exists g'. split; [reflexivity|]. cbn [cd_dyn]. eapply gok_perm; [exact Pd|exact G'].
      + unfold dirtyc, next_dirty. cbn [cd_hpg pending]. rewrite Eg. unfold hpg_dirty. rewrite Eu. reflexivity.
      + intros (L1 & L2) Se. split; [|exact L2]. cbn [cd_hpg cd_dyn] in *. intros g1 [= <-] i ci Eci. eapply low_perm; [exact Pd|].
        apply (L (L1 g Eg)) with i; [|exact Eci]. assert (a_obj (h_shape h') = a_obj (h_shape h)) as -> by (unfold fact_of in Ef; congruence). apply Se. reflexivity.
    - assert (He : In e (ents (cd_dyn c))) by (eapply Permutation_in; [symmetry; exact Pe|exact V]).
      destruct (cde_deregister_ok BSok lvl bb c e b I He) as (h & dyn & qt & Pm & Eh & E & R').
      rewrite E, Eg. cbn [opt_hpg].
      assert (Gd' := Permutation_Forall Pm Gd). assert (Cd' := Permutation_Forall Pm Cd). inversion Gd'; inversion Cd'; subst.
      assert (Pm' := Permutation_map fact_of Pm). cbn [map] in Pm'. unfold hpg_deregister. destruct b.
      + destruct (gok_deregister g0 rad (map fact_of (cd_dyn c)) g [h_ent h] (hg_unc g) dyn W G) as (gr & Er & G' & L); auto.
        { intros x Hx. eapply Permutation_in; [symmetry; exact Pm'|right; exact Hx]. }
        { intros f Hf. eapply Permutation_in in Hf; [|exact Pm']. destruct Hf as [<-|Hf]; [left; left; reflexivity|right; exact Hf]. }
        { apply incl_tl, incl_refl. }
        rewrite Er. cbn [rbind]. eexists. eexists. split; [reflexivity|]. split; [|split].
        * split; [|split; [exact Cs|cbn [cd_dyn cd_unc]; auto]]. eexists. split; [reflexivity|exact G'].
        * unfold dirtyc, next_dirty. cbn [cd_hpg pending]. rewrite Eg. reflexivity.
        * intros (L1 & L2) _. split; [|exact L2]. cbn [cd_hpg cd_dyn]. intros g1 [= <-]. cbn [hg_grid]. apply L, L1, Eg.
      + cbn [rbind]. eexists. eexists. split; [reflexivity|]. split; [|split].
        * split; [|split; [exact Cs|cbn [cd_dyn cd_unc]; split; [assumption|split; [apply Forall_app; split; [exact Gu|constructor; auto]|exact Gs]]]].
          eexists. split; [reflexivity|]. destruct G as [G1 G2 G3 G4 G5]. split; cbn [hg_rad hg_bbox hg_grid hg_unc cd_dyn]; auto.
          intros i ci Eci. destruct (G4 i ci Eci) as [O|[O|(f & k & Hf & Ef & Hk & Ev)]]; [left; exact O|right; left; apply in_or_app; left; exact O|].
          eapply Permutation_in in Hf; [|exact Pm']. destruct Hf as [<-|Hf]; [right; left; rewrite <- Ef; apply in_or_app; right; left; reflexivity|].
          right. right. exists f, k. auto.
        * unfold dirtyc, next_dirty. cbn [cd_hpg pending]. unfold hpg_dirty. cbn [hg_unc]. destruct (hg_unc g); reflexivity.
        * intros (L1 & L2) _. split; [|exact L2]. cbn [cd_hpg cd_dyn]. intros g1 [= <-]. cbn [hg_grid]. intros i ci Eci.
          apply (low_mono (map fact_of (cd_dyn c))); [|apply (L1 g Eg i ci Eci)]. intros x Hx. eapply Permutation_in; [symmetry; exact Pm'|right; exact Hx].
    - destruct (cde_commit_ok lvl bb c I) as (qt & E & R'). rewrite E, Eg. cbn [opt_hpg].
      destruct (gok_flush g0 rad g (cd_dyn c) W G Gd Cd) as (g' & Er & G' & Eu & L). rewrite Er. cbn [rbind].
      eexists. eexists. split; [reflexivity|]. split; [|split].
      + split; [|split; [exact Cs|cbn [cd_dyn cd_unc]; auto]]. exists g'. auto.
      + unfold dirtyc, next_dirty. cbn [cd_hpg pending]. apply dirty_nil, Eu.
      + intros (L1 & L2) _. split; [|exact L2]. cbn [cd_hpg cd_dyn]. intros g1 [= <-]. apply L, L1, Eg.
    - rewrite (cde_flush_ok lvl bb c I), Eg. cbn [opt_hpg].
      destruct (gok_flush g0 rad g (cd_dyn c) W G Gd Cd) as (g' & Er & G' & Eu & L). rewrite Er. cbn [rbind].
      eexists. eexists. split; [reflexivity|]. split; [|split].
      + split; [|split; [exact Cs|cbn [cd_dyn cd_unc]; auto]]. exists g'. auto.
      + unfold dirtyc, next_dirty. cbn [cd_hpg pending]. apply dirty_nil, Eu.
      + intros (L1 & L2) _. split; [|exact L2]. cbn [cd_hpg cd_dyn]. intros g1 [= <-]. apply L, L1, Eg.
    - destruct (cde_commit_ok lvl bb c I) as (qt & E & R'). unfold cde_snapshot. rewrite E, Eg. cbn [opt_hpg].
      destruct (gok_flush g0 rad g (cd_dyn c) W G Gd Cd) as (g' & Er & G' & Eu & L). rewrite Er. cbn [rbind cd_hpg].
      rewrite (dirty_nil g' Eu). cbn [negb rassert rbind option_map cd_dyn].
      eexists. eexists. split; [reflexivity|]. split; [|split].
      + split; [exists g'; auto|]. split; [apply Forall_app; split; [exact Cs|constructor; [|constructor]]|cbn [cd_dyn cd_unc]; split; [exact Gd|split; [constructor|apply Forall_app; auto]]].
        exists (hg_grid g'). destruct G' as [G1 G2 G3 G4 G5]. rewrite Eu in G4. auto.
      + unfold dirtyc, next_dirty. cbn [cd_hpg pending]. apply dirty_nil, Eu.
      + intros (L1 & L2) _. split; cbn [cd_hpg cd_dyn].
        * intros g1 [= <-]. apply L, L1, Eg.
        * apply Forall_app. split; [exact L2|]. constructor; [|constructor]. cbn [sn_grid sn_dyn]. intros gr [= <-]. apply L, L1, Eg.
    - apply F2_length in Sn. cbn [snd] in V; rewrite <- Sn in V. apply nth_error_Some in V.
      destruct (nth_error sn k) as [s|] eqn:H0; [|congruence]. cbn [expect rbind].
      rewrite Forall_forall in So. destruct (So s (nth_error_In _ _ H0)) as (Sok & Sd). rewrite <- Es in Sok.
      destruct (cde_restore_ok BSok lvl bb c s I Sok) as (qt & dyn & E & R' & Inc & Pm).
      rewrite E, Eg. cbn [opt_hpg].
      pose proof Cs as Cs0. rewrite Forall_forall in Cs0. destruct (Cs0 s (nth_error_In _ _ H0)) as (gr & Egr & Sg & Og & Rg).
      rewrite Egr. cbn [expect rbind]. unfold hpg_restore. destruct G as [G1 G2 G3 G4 G5].
      assert (Le : length (g_cells (hg_grid g)) = length (g_cells gr)).
      { destruct G3 as (_ & _ & Q1 & _). destruct Sg as (_ & _ & Q2 & _). congruence. }
      rewrite Le, Nat.eqb_refl. cbn [rbind].
      assert (Hd : forall h, In h dyn -> denotes shp h /\ grid_hazard h).
      { intros h Hh. apply Inc in Hh. apply in_app_or in Hh as [Hh|Hh]; [|apply in_app_or in Hh as [Hh|Hh]].
        - rewrite Forall_forall in Cd, Gd. auto.
        - rewrite Forall_forall in Cu, Gu. auto.
        - rewrite Forall_forall in Sd. split; [auto|]. rewrite Forall_forall in Gs. pose proof (Gs s (nth_error_In _ _ H0)) as K. rewrite Forall_forall in K. auto. }
      assert (Dd : Forall (denotes shp) dyn) by (apply Forall_forall; intros h Hh; apply Hd, Hh).
      assert (Pf : Permutation (map fact_of (sn_dyn s)) (map fact_of dyn)) by (symmetry; apply (coherent_perm shp); assumption).
      eexists. eexists. split; [reflexivity|]. split; [|split].
      + split; [|split; [exact Cs|cbn [cd_dyn cd_unc]; split; [apply Forall_forall; intros h Hh; apply Hd, Hh|split; [constructor|exact Gs]]]].
        eexists. split; [reflexivity|]. split; cbn [hg_rad hg_bbox hg_grid hg_unc cd_dyn]; auto.
        intros i ci Eci. eapply owned_perm; [exact Pf|apply (Og i ci Eci)].
      + unfold dirtyc, next_dirty. cbn [cd_hpg pending]. reflexivity.
      + intros (L1 & L2) _. split; [|exact L2]. cbn [cd_hpg cd_dyn]. intros g1 [= <-]. cbn [hg_grid]. intros i ci Eci.
        eapply low_perm; [exact Pf|]. rewrite Forall_forall in L2. apply (L2 s (nth_error_In _ _ H0) gr Egr i ci Eci).
  Qed.
End GH.
