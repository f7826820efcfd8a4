(** Engine-level lemmas behind the statements about feasible placements. *)
From Coq Require Import Reals List Bool Lra Lia Arith.
From Verif Require Import Base Num GeoModel HazardModel QTModel BaseProofs HazVecProofs QTProofs TransfModel HpgModel CdeModel
  CdeProofs CdeOpsProofs CdeSpec CdeHistProofs CdeThmProofs Instances GeoSpec ParityProofs GeoPrimProofs GeoRectProofs PipProofs
  QTGeoProofs TouchProofs RegionProofs PlaceSpec CdeGeoProofs RigidProofs GeoThmProofs.
From Coq Require Import Reals.
Import ListNotations.
Local Open Scope R_scope.
#[local] Existing Instance RNum.

Lemma tri_all_false : forall l, tri_all l = TFalse <-> forall x, In x l -> x = TFalse.
Proof.
  induction l as [|x l IH]; simpl; [split; [intros _ y []|reflexivity]|].
  split.
  - intros H y [<-|Hy]; destruct x, (tri_all l); simpl in H; try discriminate; auto. apply IH; auto.
  - intros H. rewrite (H x (or_introl eq_refl)). rewrite (proj2 IH); [reflexivity|]. intros y Hy. apply H. auto.
Qed.
Lemma yn_true : forall b, yn b = TTrue -> b = true. Proof. intros []; [reflexivity|discriminate]. Qed.
Lemma yn_false : forall b, yn b = TFalse -> b = false. Proof. intros []; [discriminate|reflexivity]. Qed.

Section Thm.
  Context {D : Type} {ED : EqD D} {BS : BSearch}.
  Hypothesis BSok : bsearch_ok BS.
  Local Notation fact := (CdeSpec.fact R D).
  Variables (bb : rrect) (st : list (hazard R D)) (lvl n : nat) (ops : list (op R D)) (c : cde R D) (sn : list (snapshot R D)).
  Hypothesis V : valid st ops.
  Hypothesis E : engine bb st lvl n ops = Ok (c, sn).
  Hypothesis Fr : framed bb (facts st ops).
  Local Notation fs := (facts st ops).

  Lemma asked : forall q, good_question q -> ask c q = Ok (answer lvl bb fs q).
  Proof. intros q. apply (ask_facts BSok bb st lvl n ops c sn q V E). Qed.
  Lemma rel_in : forall (irr : list (entity D)) (f : fact), rel irr f = true <-> ~ In (f_ent f) irr.
  Proof. intros irr f. unfold rel. rewrite negb_true_iff. change (o_ent f) with (f_ent f). symmetry. split; [|apply memb_ent_false].
    intros H. destruct (memb ent_eqb (f_ent f) irr) eqn:M; [|reflexivity]. apply memb_ent in M. contradiction. Qed.
  Lemma good_sound_facts : good_facts fs -> sound_facts fs.
  Proof. intros G f Hf. apply good_sound, G, Hf. Qed.

  (** C13 *)
  Lemma no_missed_crossing : sound_facts fs -> forall f e g x irr, In f fs -> ~ In (f_ent f) irr ->
    In g (ring (p_pts (f_poly f))) -> edet e g <> 0 -> on_seg e x -> on_seg g x -> in_rect bb x ->
    ask c (AskQuery (edge_query e) irr) = Ok TTrue.
  Proof.
    intros Sf f e g x irr Hf Ni Hg Dt Oe Og Ix. rewrite asked by exact Logic.I. cbn [answer]. f_equal.
    replace (existsb _ _) with true; [reflexivity|]. symmetry. apply existsb_exists. exists f. split; [exact Hf|].
    apply andb_true_iff. split; [apply rel_in; exact Ni|]. eapply ohits_edge_complete; eassumption.
  Qed.
  Lemma no_missed_crossing_poly : sound_facts fs -> forall f s e g x irr, sound_poly s -> In f fs -> ~ In (f_ent f) irr ->
    In e (ring (p_pts s)) -> In g (ring (p_pts (f_poly f))) -> edet e g <> 0 -> on_seg e x -> on_seg g x -> in_rect bb x ->
    ask c (AskPoly s irr) = Ok TTrue.
  Proof.
    intros Sf f s e g x irr Ss Hf Ni He Hg Dt Oe Og Ix. pose proof (sound_wf _ Ss) as W. rewrite asked by exact W. cbn [answer]. f_equal.
    replace (opoly lvl bb s irr fs) with true; [reflexivity|]. symmetry. unfold opoly.
    destruct (relation_to bb (p_bbox s)); try reflexivity. apply orb_true_iff. left. unfold oedge.
    apply in_ring_index in He as (i & Hi & ->); [|exact W].
    apply existsb_exists. exists i. split; [apply in_seq; lia|].
    apply existsb_exists. exists f. split; [exact Hf|]. apply andb_true_iff. split; [apply rel_in; exact Ni|].
    eapply ohits_edge_complete; eassumption.
  Qed.
  (** an edge the engine reports touches some hazard *)
  Lemma reported_edge : sound_facts fs -> forall e irr, ask c (AskQuery (edge_query e) irr) = Ok TTrue ->
    exists f p, In f fs /\ ~ In (f_ent f) irr /\ on_seg e p /\ blocked f p.
  Proof.
    intros Sf e irr H. rewrite asked in H by exact Logic.I. cbn [answer] in H. injection H as H. apply yn_true in H.
    apply existsb_exists in H as (f & Hf & H). apply andb_true_iff in H as (Rl & H). apply rel_in in Rl.
    apply (ohits_edge_sound lvl bb fs Fr Sf) in H as (p & A & B); [|exact Hf]. exists f, p. auto.
  Qed.

  (** C14 *)
  Lemma find_fact : forall f, In f fs -> find (fun o => ent_eqb (o_ent o) (f_ent f)) fs = Some f.
  Proof.
    intros f Hf. pose proof (nodup_facts BSok bb st lvl n ops c sn V E) as ND.
    destruct (find (fun o => ent_eqb (o_ent o) (f_ent f)) fs) as [o|] eqn:Ef.
    - apply find_some in Ef as (Ho & Eo). apply ent_eqb_ok in Eo. f_equal.
      apply (nodup_map_inj f_ent _ o f ND Ho Hf). exact Eo.
    - apply find_none with (x := f) in Ef; [|exact Hf]. rewrite (proj2 (ent_eqb_ok _ _) eq_refl) in Ef. discriminate.
  Qed.
  Lemma definite_point : sound_facts fs -> forall f p, In f fs -> exists a, ask c (AskPoint p (f_ent f)) = Ok a /\
    match a with TTrue => strictly_blocked f p | TFalse => ~ blocked f p | TIndet => True end.
  Proof.
    intros Sf f p Hf. rewrite asked by exact Logic.I. eexists. split; [reflexivity|]. cbn [answer].
    destruct (rp_collides bb p) eqn:Ip; [|exact Logic.I]. apply rp_collides_iff in Ip. rewrite (find_fact f Hf).
    destruct (otri lvl bb (fun r => rp_collides r p) f) eqn:Et; [| |exact Logic.I].
    - eapply otri_point_true; eassumption.
    - eapply otri_point_false; eassumption.
  Qed.
  Lemma seg_in_box : forall e, in_rect bb (es e) -> in_rect bb (ee e) -> forall p, on_seg e p -> in_rect bb p.
  Proof. intros [u v] A B p O. apply (seg_in_rect bb u v p A B O). Qed.
  Lemma definite_edge : sound_facts fs -> forall e irr, in_rect bb (es e) -> in_rect bb (ee e) ->
    exists a, ask c (AskEdge e irr) = Ok a /\
    match a with
    | TTrue => exists f p, In f fs /\ ~ In (f_ent f) irr /\ on_seg e p /\ strictly_blocked f p
    | TFalse => forall f p, In f fs -> ~ In (f_ent f) irr -> on_seg e p -> ~ blocked f p
    | TIndet => True
    end.
  Proof.
    intros Sf e irr A B. rewrite asked by exact Logic.I. eexists. split; [reflexivity|]. cbn [answer].
    rewrite (proj2 (rp_collides_iff _ _) A), (proj2 (rp_collides_iff _ _) B). cbn [negb orb].
    destruct (tri_all _) eqn:Et; [| |exact Logic.I].
    - apply tri_all_true in Et. apply in_map_iff in Et as (f & Et & Hf). apply filter_In in Hf as (Hf & Rl).
      apply (otri_true lvl bb fs Fr Sf) in Et as (r & Pr & Qr & Hr); [|exact Hf].
      apply re_collides_iff in Qr as (p & Op & Ip); [|exact Pr]. exists f, p.
      split; [exact Hf|]. split; [apply rel_in; exact Rl|]. split; [exact Op|apply Hr; exact Ip].
    - intros f p Hf Ni Op. pose proof (proj1 (tri_all_false _) Et) as Al.
      apply (otri_false lvl bb fs Fr Sf (qy_rect (edge_query e)) f p); [exact Hf| |apply (seg_in_box e A B p Op)|].
      + intros r Pr Ir. apply re_collides_iff; [exact Pr|]. exists p. auto.
      + apply Al. apply in_map. apply filter_In. split; [exact Hf|apply rel_in; exact Ni].
  Qed.
  Lemma definite_circle : sound_facts fs -> forall k irr, 0 <= crad k -> in_rect bb (ccen k) ->
    exists a, ask c (AskCircle k irr) = Ok a /\
    match a with
    | TTrue => exists f p, In f fs /\ ~ In (f_ent f) irr /\ in_disk k p /\ strictly_blocked f p
    | TFalse => forall f p, In f fs -> ~ In (f_ent f) irr -> in_disk k p -> in_rect bb p -> ~ blocked f p
    | TIndet => True
    end.
  Proof.
    intros Sf k irr K0 A. rewrite asked by exact Logic.I. eexists. split; [reflexivity|]. cbn [answer].
    rewrite (proj2 (rp_collides_iff _ _) A).
    destruct (tri_all _) eqn:Et; [| |exact Logic.I].
    - apply tri_all_true in Et. apply in_map_iff in Et as (f & Et & Hf). apply filter_In in Hf as (Hf & Rl).
      apply (otri_true lvl bb fs Fr Sf) in Et as (r & Pr & Qr & Hr); [|exact Hf].
      apply cr_collides_iff in Qr as (p & Op & Ip); [|exact K0|apply proper_nonempty; exact Pr]. exists f, p.
      split; [exact Hf|]. split; [apply rel_in; exact Rl|]. split; [exact Op|apply Hr; exact Ip].
    - intros f p Hf Ni Op Ip. pose proof (proj1 (tri_all_false _) Et) as Al.
      apply (otri_false lvl bb fs Fr Sf (qy_rect (circle_query k)) f p); [exact Hf| |exact Ip|].
      + intros r Pr Ir. apply cr_collides_iff; [exact K0|apply proper_nonempty; exact Pr|]. exists p. auto.
      + apply Al. apply in_map. apply filter_In. split; [exact Hf|apply rel_in; exact Ni].
  Qed.

  (** C15 *)
  Lemma surrounding_inside : forall s, good_shape s -> relation_to bb (p_bbox s) = Surrounding -> box_inside bb s.
  Proof.
    intros s Gs H. pose proof (relation_to_ok bb (p_bbox s) (proper_nonempty _ (proj1 Fr)) (proper_nonempty _ (gs_proper _ Gs))) as RR.
    rewrite H in RR. exact RR.
  Qed.
  Lemma inside_surrounding : forall s, good_shape s -> box_inside bb s -> relation_to bb (p_bbox s) = Surrounding.
  Proof.
    intros s Gs Ins. pose proof (relation_to_ok bb (p_bbox s) (proper_nonempty _ (proj1 Fr)) (proper_nonempty _ (gs_proper _ Gs))) as RR.
    pose proof (box_centre s Gs) as Bc.
    destruct (relation_to bb (p_bbox s)) eqn:Er; [| |reflexivity|]; exfalso.
    - destruct RR as (_ & _ & (p & A & B)). apply B, Ins, A.
    - destruct RR as (_ & (p & A & B)). apply B, Ins, A.
    - apply RR. exists (ccen (p_poi s)). split; [apply Ins|]; exact Bc.
  Qed.
  Lemma accepted_feasible : good_facts fs -> forall s irr, good_shape s ->
    ask c (AskPoly s irr) = Ok TFalse -> feasible s irr fs.
  Proof.
    intros Gf s irr Gs H. rewrite asked in H by (apply good_wf; exact Gs). cbn [answer] in H. injection H as H. apply yn_false in H.
    apply (opoly_false lvl bb fs Fr (good_sound_facts Gf) s Gs); auto.
    apply surrounding_inside; [exact Gs|]. unfold opoly in H. destruct (relation_to bb (p_bbox s)); congruence.
  Qed.
  (** C16 *)
  Lemma rejected_collides : good_facts fs -> forall s irr, good_shape s -> box_inside bb s ->
    ask c (AskPoly s irr) = Ok TTrue ->
    exists f p, In f fs /\ ~ In (f_ent f) irr /\ region (p_pts s) p /\ blocked f p.
  Proof.
    intros Gf s irr Gs Ins H. rewrite asked in H by (apply good_wf; exact Gs). cbn [answer] in H. injection H as H. apply yn_true in H.
    apply (opoly_true lvl bb fs Fr (good_sound_facts Gf) s Gs Ins); auto.
  Qed.
  (** outside the engine's box: some vertex is outside the bin contour *)
  Lemma inflate_contains : forall r, proper r -> forall p, in_rect r p -> in_rect (inflate_to_square r) p.
  Proof.
    intros r P p H. apply inflate_sub; [exact H|apply proper_nonempty; exact P].
  Qed.
  Lemma outside_collides : good_facts fs -> forall s f, good_shape s -> In f fs -> ent_position (f_ent f) = Exterior ->
    ~ box_inside bb s -> exists p, region (p_pts s) p /\ blocked f p.
  Proof.
    intros Gf s f Gs Hf Ex NI. destruct (sticks_out s Gs f Ex) as (p & A & B).
    - apply good_sound, Gf, Hf.
    - intros H. apply NI. intros p Ip. rewrite (proj2 Fr f Hf Ex). apply inflate_contains; [apply gs_proper, Gf, Hf|]. apply H. exact Ip.
    - exists p. split; [left; exact A|exact B].
  Qed.
  Lemma rejected_collides_bin : good_facts fs -> forall s irr f0, good_shape s ->
    In f0 fs -> ent_position (f_ent f0) = Exterior -> ~ In (f_ent f0) irr ->
    ask c (AskPoly s irr) = Ok TTrue ->
    exists f p, In f fs /\ ~ In (f_ent f) irr /\ region (p_pts s) p /\ blocked f p.
  Proof.
    intros Gf s irr f0 Gs H0 Ex Ni H. destruct (relation_to bb (p_bbox s)) eqn:Er.
    3: apply (rejected_collides Gf s irr Gs (surrounding_inside s Gs Er) H).
    all: destruct (outside_collides Gf s f0 Gs H0 Ex) as (p & A & B); [|exists f0, p; auto].
    all: intros Ins; rewrite (inside_surrounding s Gs Ins) in Er; discriminate.
  Qed.

  (** both directions: with the bin exterior in force and every flag set, acceptance is feasibility *)
  Lemma accepted_iff_feasible : good_facts fs -> all_active fs -> forall s irr, good_shape s ->
    (box_inside bb s \/ exists f0, In f0 fs /\ ent_position (f_ent f0) = Exterior /\ ~ In (f_ent f0) irr) ->
    (ask c (AskPoly s irr) = Ok TFalse <-> feasible s irr fs).
  Proof.
    intros Gf Ac s irr Gs Hin. split; [apply accepted_feasible; assumption|]. intros Fe.
    destruct (ask c (AskPoly s irr)) as [a|] eqn:Ea; [|rewrite asked in Ea by (apply good_wf; exact Gs); discriminate].
    destruct a; [|reflexivity|].
    - exfalso. assert (X : exists f p, In f fs /\ ~ In (f_ent f) irr /\ region (p_pts s) p /\ blocked f p).
      { destruct Hin as [Ins|(f0 & A & B & C)]; [apply rejected_collides|apply (rejected_collides_bin Gf s irr f0)]; assumption. }
      destruct X as (f & p & A & B & C & Bl). exact (Fe f A (Ac f A) B p C Bl).
    - exfalso. rewrite asked in Ea by (apply good_wf; exact Gs). cbn [answer] in Ea. destruct (opoly _ _ _ _ _); discriminate.
  Qed.

  (** C17 *)
  Lemma disk_moved : forall t k q, rigid t -> in_disk (tr_circle t k) q -> exists p, q = tr_point t p /\ in_disk k p.
  Proof.
    intros t k q Rg H. destruct (rigid_surj t Rg q) as (p & ->). exists p. split; [reflexivity|].
    unfold in_disk in *. cbn [tr_circle ccen crad] in H. rewrite (rigid_dist t Rg) in H. exact H.
  Qed.
  Lemma segment_moved : forall t e q, rigid t -> on_seg (tr_edge t e) q -> exists p, q = tr_point t p /\ on_seg e p.
  Proof.
    intros t e q Rg (k & Hk & ->). exists (at_t e k). split; [|exists k; auto].
    rewrite (tr_rot t Rg). unfold tr_edge. rewrite !(tr_rot t Rg). unfold rot, at_t. cbn [px py es ee]. apply pt_ext; cbn [px py]; ring.
  Qed.
  Lemma region_moved : forall t l p, rigid t -> region l p -> region (map (tr_point t) l) (tr_point t p).
  Proof.
    intros t l p Rg H. destruct (rigid_sets t l p Rg) as (A & B & _). unfold region in *.
    destruct (on_border_dec l p) as [O|O]; [left; apply A; exact O|]. right.
    destruct H as [H|H]; [contradiction|]. apply B. split; assumption.
  Qed.
  Lemma surrogate_never_changes : good_facts fs -> all_active fs -> forall s t buf b u irr,
    good_shape s -> rigid t -> p_surr s = Some u -> surrogate_inside s u -> length (p_pts buf) = length (p_pts s) ->
    tr_poly_from t buf s = Ok b -> ask c (AskBoth s t buf irr) = ask c (AskPoly b irr).
  Proof.
    intros Gf Ac s t buf b u irr Gs Rg Eu (Nf & Sp & Si) Lb Eb.
    destruct (good_tr_poly_from t buf s b Rg Gs Lb Eb) as (Gb & Pb).
    rewrite !asked; [|apply good_wf; exact Gb|split; [exists u; auto|exists b; split; [exact Eb|apply good_wf; exact Gb]]].
    cbn [answer]. rewrite Eu, Eb. f_equal. f_equal.
    destruct (opoly lvl bb b irr fs) eqn:Eo; [apply orb_true_r|]. rewrite orb_false_r.
    assert (Fe : feasible b irr fs).
    { apply accepted_feasible; auto. rewrite asked by (apply good_wf; exact Gb). cbn [answer]. rewrite Eo. reflexivity. }
    assert (K : forall f p, In f fs -> rel irr f = true -> region (p_pts s) p -> blocked f (tr_point t p) -> False).
    { intros f p Hf Rl Rp Bl. apply rel_in in Rl. apply (Fe f Hf (Ac f Hf) Rl (tr_point t p)); [|exact Bl].
      rewrite Pb. apply region_moved; assumption. }
    destruct (osurr lvl bb u t irr fs) eqn:Es; [|reflexivity]. exfalso. unfold osurr in Es.
    pose proof (good_sound_facts Gf) as Sf.
    apply orb_true_iff in Es as [Es|Es]; apply existsb_exists in Es as (k & Hk & Es);
      apply existsb_exists in Es as (f & Hf & Es); apply andb_true_iff in Es as (Rl & Es).
    - destruct (Sp k Hk) as (R0 & Dk). apply (ohits_circle_sound lvl bb fs Fr Sf) in Es as (q & A & B); [|exact R0|exact Hf].
      destruct (disk_moved t k q Rg A) as (p & -> & Ip). apply (K f p); auto.
    - apply (ohits_edge_sound lvl bb fs Fr Sf) in Es as (q & A & B); [|exact Hf].
      destruct (segment_moved t k q Rg A) as (p & -> & Ip). apply (K f p); auto. apply (Si k Hk p Ip).
  Qed.
End Thm.
