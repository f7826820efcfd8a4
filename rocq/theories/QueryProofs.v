(** Filters, and looking up the hazards in a shape. *)
From Coq Require Import List Bool Arith Lia Permutation.
From Verif Require Import Base Num GeoModel HazardModel QTModel TransfModel HpgModel CdeModel CdeSpec Instances
  BaseProofs HazVecProofs QTProofs CdeProofs CdeOpsProofs CdeHistProofs CdeThmProofs.
From Coq Require Import Reals Lra.
From Verif Require Import GeoModel HazardModel QTModel CdeModel CdeSpec GeoSpec PlaceSpec ParityProofs GeoPrimProofs GeoRectProofs PipProofs RegionProofs QTGeoProofs
  CdeGeoProofs CdeGeoThmProofs QuerySpec.
Import ListNotations.

Section Filt.
  Context {F : Type} {N : Num F} {D : Type} {ED : EqD D} {BS : BSearch}.
  Hypothesis BSok : bsearch_ok BS.
  Local Notation op := (op F D).
  Local Notation cde := (cde F D).

  Lemma filter_hides : forall (f : fexp D) e, filter_of f e = true <-> hides f e.
  Proof.
    fix IH 1. intros [|k|l|l] e; cbn [filter_of].
    - destruct e; cbn; split; intros H; try discriminate; try constructor; try reflexivity. inversion H.
    - destruct e; cbn; split; intros H; try discriminate; try (inversion H; fail).
      + apply Nat.leb_le in H. constructor. exact H.
      + inversion H; subst. apply Nat.leb_le. assumption.
    - unfold entity_filter. rewrite memb_ent. split; [intros H; constructor; exact H|intros H; inversion H; assumption].
    - unfold combined_filter.
      assert (K : existsb (fun g => g e) (map filter_of l) = true <-> exists f, In f l /\ hides f e).
      { induction l as [|f l IHl]; cbn [map existsb].
        - split; [discriminate|intros (f & [] & _)].
        - rewrite orb_true_iff, (IH f e), IHl. split.
          + intros [H|(g & Hg & H)]; [exists f; split; [left; reflexivity|exact H]|exists g; split; [right; exact Hg|exact H]].
          + intros (g & [<-|Hg] & H); [left; exact H|right; exists g; auto]. }
      rewrite K. split; [intros (f & Hf & H); econstructor; eassumption|intros H; inversion H; subst; eauto].
  Qed.
  Lemma generated_iff : forall bb st lvl n (ops : list op) (c : cde) sn (f : fexp D) e, valid st ops -> engine bb st lvl n ops = Ok (c, sn) ->
    (In e (generate_irrelevant (filter_of f) (all_hazards c)) <-> hides f e /\ In e (map f_ent (facts st ops))).
  Proof.
    intros bb st lvl n ops c sn f e V E. destruct (engine_inv BSok _ _ _ _ _ _ _ V E) as (_ & P & _).
    unfold generate_irrelevant. rewrite in_omap. rewrite <- filter_hides. unfold registered in P.
    assert (K : In e (map f_ent (facts st ops)) <-> exists h, In h (all_hazards c) /\ h_ent h = e).
    { pose proof (Permutation_map f_ent P) as Q. split.
      - intros H. eapply Permutation_in in H; [|symmetry; exact Q]. rewrite map_map in H. apply in_map_iff in H as (h & Eh & Hh). exists h. split; [exact Hh|exact Eh].
      - intros (h & Hh & <-). eapply Permutation_in; [exact Q|]. rewrite map_map. apply in_map_iff. exists h. split; [reflexivity|exact Hh]. }
    rewrite K. split.
    - intros (h & Hh & X). destruct (filter_of f (h_ent h)) eqn:Ef; [|discriminate]. injection X as <-. split; [exact Ef|]. exists h. auto.
    - intros (X & h & Hh & <-). exists h. split; [exact Hh|]. rewrite X. reflexivity.
  Qed.
  Lemma filtered_absent : forall bb lvl st (ops : list op) n c sn st' (ops' : list op) n' c' sn' (f : fexp D) q,
    valid st ops -> engine bb st lvl n ops = Ok (c, sn) ->
    valid st' ops' -> engine bb st' lvl n' ops' = Ok (c', sn') ->
    (forall x, In x (facts st' ops') <-> In x (facts st ops) /\ ~ hides f (f_ent x)) ->
    good_question q -> has_irr q = true ->
    exists t, ask c (with_irr q (generate_irrelevant (filter_of f) (all_hazards c))) = Ok t /\ ask c' (with_irr q []) = Ok t.
  Proof.
    intros bb lvl st ops n c sn st' ops' n' c' sn' f q V E V' E' H G Hi.
    apply (ignore_absent BSok bb lvl st ops n c sn st' ops' n' c' sn' q _ V E V' E'); [|exact G|exact Hi].
    pose proof (nodup_facts BSok _ _ _ _ _ _ _ V E) as ND. pose proof (nodup_facts BSok _ _ _ _ _ _ _ V' E') as ND'.
    apply NoDup_Permutation.
    - apply NoDup_filter. exact (NoDup_map_inv _ _ ND).
    - exact (NoDup_map_inv _ _ ND').
    - intros x. rewrite filter_In, negb_true_iff, H.
      assert (K : memb ent_eqb (f_ent x) (generate_irrelevant (filter_of f) (all_hazards c)) = true <-> In (f_ent x) (generate_irrelevant (filter_of f) (all_hazards c))) by apply memb_ent.
      rewrite (generated_iff _ _ _ _ _ _ _ f (f_ent x) V E) in K. split; intros (A & B); split; try exact A.
      + intros X. rewrite (proj2 K) in B; [discriminate|]. split; [exact X|]. apply in_map. exact A.
      + destruct (memb _ _ _) eqn:Em; [|reflexivity]. exfalso. apply B. apply K. reflexivity.
  Qed.
End Filt.

Local Open Scope R_scope.
#[local] Existing Instance RNum.
Lemma disk_seg : forall k p q x, in_disk k p -> in_disk k q -> on_seg (Ed p q) x -> in_disk k x.
Proof.
  intros k p q x Hp Hq (t & Ht & ->). unfold in_disk in *.
  assert (R0 : 0 <= crad k) by (eapply Rle_trans; [apply edist_nonneg|exact Hp]).
  apply edist_le in Hp; [|exact R0]. apply edist_le in Hq; [|exact R0]. apply edist_le; [exact R0|]. unfold at_t. cbn [px py es ee].
  set (a := px p - px (ccen k)) in *. set (b := py p - py (ccen k)) in *. set (c := px q - px (ccen k)) in *. set (d := py q - py (ccen k)) in *.
  assert (P : 0 <= t * (1 - t)) by (apply Rmult_le_pos; lra).
  match goal with |- ?L <= _ => replace L with ((1 - t) * (a ^ 2 + b ^ 2) + t * (c ^ 2 + d ^ 2) - t * (1 - t) * ((a - c) ^ 2 + (b - d) ^ 2)) end.
  - assert (0 <= (a - c) ^ 2 + (b - d) ^ 2) by (pose proof (pow2_ge_0 (a - c)); pose proof (pow2_ge_0 (b - d)); lra). assert (0 <= t * (1 - t) * ((a - c) ^ 2 + (b - d) ^ 2)) by (apply Rmult_le_pos; assumption).
    assert ((1 - t) * (a ^ 2 + b ^ 2) <= (1 - t) * (crad k * crad k)) by (apply Rmult_le_compat_l; lra).
    assert (t * (c ^ 2 + d ^ 2) <= t * (crad k * crad k)) by (apply Rmult_le_compat_l; lra). lra.
  - unfold a, b, c, d. ring.
Qed.
Lemma shape_seg : forall s p q x, is_area s -> covers s p -> covers s q -> on_seg (Ed p q) x -> covers s x.
Proof. intros [e|k|r] p q x A Hp Hq O; [destruct A|exact (disk_seg k p q x Hp Hq O)|exact (seg_in_rect r p q x Hp Hq O)]. Qed.
Lemma query_rect : forall s r, shape_ok s -> proper r -> (qy_rect (query_of s) r = true <-> exists p, covers s p /\ in_rect r p).
Proof.
  intros [e|k|b] r Ok Pr; cbn in *.
  - apply re_collides_iff. exact Pr.
  - apply cr_collides_iff; [exact Ok|apply proper_nonempty; exact Pr].
  - apply rr_collides_iff; apply proper_nonempty; assumption.
Qed.
Lemma query_edge : forall s g, shape_ok s -> is_area s -> (qy_edge (query_of s) g = true <-> exists p, covers s p /\ on_seg g p).
Proof.
  intros [e|k|b] g Ok A; [destruct A| |]; cbn in *; [apply ce_collides_iff; exact Ok|].
  rewrite re_collides_iff by exact Ok. split; intros (p & H1 & H2); exists p; auto.
Qed.

Section Look.
  Context {D : Type} {ED : EqD D} {BS : BSearch}.
  Hypothesis BSok : bsearch_ok BS.
  Local Notation fact := (CdeSpec.fact R D).
  Variables (bb : rrect) (st : list (hazard R D)) (lvl n : nat) (ops : list (op R D)) (c : cde R D) (sn : list (snapshot R D)).
  Hypothesis V : valid st ops.
  Hypothesis E : engine bb st lvl n ops = Ok (c, sn).
  Hypothesis Fr : framed bb (facts st ops).
  Hypothesis Sf : sound_facts (facts st ops).
  Local Notation fs := (facts st ops).

  Lemma shape_sound : forall s f, shape_ok s -> In f fs -> ohits lvl bb (query_of s) f = true -> exists p, covers s p /\ blocked f p.
  Proof.
    intros s f Ok Hf H. destruct (ohits_sound lvl bb fs Fr Sf _ f Hf H) as [(g & Hg & Q)|(r & Pr & Qr & Hr)].
    - assert (X : exists p, covers s p /\ on_seg g p).
      { destruct s as [e|k|b]; [|apply query_edge; [exact Ok|exact Logic.I|exact Q]..].
        apply ee_collides_iff in Q as ((p & A & B) & _). exists p. auto. }
      destruct X as (p & A & B). exists p. split; [exact A|]. apply border_blocked. exists g. auto.
    - apply query_rect in Qr as (p & A & B); [|exact Ok|exact Pr]. exists p. split; [exact A|]. apply (strict_blocked f). apply Hr. exact B.
  Qed.
  Lemma shape_complete : forall s f x, shape_ok s -> is_area s -> In f fs -> on_border (p_pts (f_poly f)) x -> covers s x -> in_rect bb x ->
    ohits lvl bb (query_of s) f = true.
  Proof.
    intros s f x Ok A Hf (g & Hg & Og) Cx Ix. pose proof (sound_wf _ (Sf f Hf)) as W.
    apply in_ring_index in Hg as (i & Hi & ->); [|exact W]. unfold ohits.
    eapply (hits_complete (f_poly f) (ent_position (f_ent f)) W (proj2 (Sf f Hf)) lvl bb _ _ i x); auto.
    - exact (proj1 Fr).
    - apply (f_spread bb fs Fr Sf f Hf).
    - apply (f_gok bb fs Sf f Hf).
    - intros r Pr Ir. apply query_rect; [exact Ok|exact Pr|]. eauto.
    - apply query_edge; [exact Ok|exact A|]. eauto.
  Qed.
  Lemma all_or_nothing : forall s f, shape_ok s -> is_area s -> In f fs -> ohits lvl bb (query_of s) f = false ->
    (forall p, covers s p -> in_rect bb p -> ~ blocked f p) \/ (forall p, covers s p -> in_rect bb p -> strictly_blocked f p).
  Proof.
    intros s f Ok A Hf H.
    assert (Nb : forall p, covers s p -> in_rect bb p -> ~ on_border (p_pts (f_poly f)) p).
    { intros p Cp Ip B. rewrite (shape_complete s f p Ok A Hf B Cp Ip) in H. discriminate. }
    assert (Cn : forall p q, covers s p -> in_rect bb p -> covers s q -> in_rect bb q -> even_odd (p_pts (f_poly f)) p = even_odd (p_pts (f_poly f)) q).
    { intros p q Cp Ip Cq Iq. apply even_odd_path. intros x O. apply Nb; [apply (shape_seg s p q); assumption|apply (seg_in_rect bb p q); assumption]. }
    assert (Dc : (exists p, covers s p /\ in_rect bb p /\ blocked f p) \/ ~ exists p, covers s p /\ in_rect bb p /\ blocked f p) by apply Classical_Prop.classic.
    destruct Dc as [(p & Cp & Ip & Bp)|No].
    - right. intros q Cq Iq. specialize (Cn p q Cp Ip Cq Iq). pose proof (Nb p Cp Ip) as Np. pose proof (Nb q Cq Iq) as Nq.
      unfold blocked in Bp. unfold strictly_blocked, interior, outside. destruct (ent_position (f_ent f)).
      + destruct Bp as [Bp|Bp]; [contradiction|]. split; [exact Nq|]. unfold interior in *. congruence.
      + destruct Bp as [Bp|Bp]; [contradiction|]. split; [exact Nq|]. congruence.
    - left. intros p Cp Ip Bp. apply No. exists p. auto.
  Qed.

  Lemma looked_up : forall s irr buf, shape_ok s -> exists new, collect c (CollWithin (query_of s)) irr buf = Ok (buf ++ new) /\ NoDup new /\
    forall e, In e new -> ~ In e buf /\ ~ In e irr /\
      ((exists f p, In f fs /\ f_ent f = e /\ covers s p /\ blocked f p) \/ (e = BinExterior /\ buf = [] /\ ~ in_rect bb (centre s))).
  Proof.
    intros s irr buf Ok. destruct (collect_spec BSok _ _ _ _ _ _ _ (CollWithin (query_of s)) irr buf V E Logic.I) as (new & E1 & ND & A & _).
    exists new. split; [exact E1|]. split; [exact ND|]. intros e He. destruct (A e He) as (A1 & A2 & A3). split; [exact A1|]. split; [exact A2|].
    destruct A3 as [(f & Hf & Ef & K)|(A3 & A4 & A5)].
    - left. destruct (shape_sound s f Ok Hf K) as (p & Cp & Bp). exists f, p. auto.
    - right. split; [exact A3|]. split; [exact A4|]. intros Ic. apply A5. cbn [centre_inside]. apply rp_collides_iff.
      replace (qy_cen (query_of s)) with (centre s); [exact Ic|]. destruct s; reflexivity.
  Qed.
  Lemma border_found : forall s f x irr buf, shape_ok s -> is_area s -> In f fs -> ~ In (f_ent f) (buf ++ irr) ->
    on_border (p_pts (f_poly f)) x -> covers s x -> in_rect bb x ->
    ask c (AskQuery (query_of s) irr) = Ok TTrue /\ exists e new, collect c (CollWithin (query_of s)) irr buf = Ok (buf ++ e :: new).
  Proof.
    intros s f x irr buf Ok A Hf Ni B Cx Ix. pose proof (shape_complete s f x Ok A Hf B Cx Ix) as K. split.
    - rewrite (asked BSok bb st lvl n ops c sn V E) by exact Logic.I. cbn [answer]. f_equal.
      replace (existsb _ _) with true; [reflexivity|]. symmetry. apply existsb_exists. exists f. split; [exact Hf|]. rewrite K, andb_true_r.
      apply rel_in. intros X. apply Ni. apply in_or_app. right. exact X.
    - destruct (collect_spec BSok _ _ _ _ _ _ _ (CollWithin (query_of s)) irr buf V E Logic.I) as (new & E1 & _ & _ & M).
      destruct new as [|e new]; [exfalso; apply M; [|reflexivity]; exists f; auto|]. exists e, new. exact E1.
  Qed.
  Lemma silence : forall s irr buf, shape_ok s -> is_area s -> collect c (CollWithin (query_of s)) irr buf = Ok buf ->
    forall f, In f fs -> ~ In (f_ent f) (buf ++ irr) ->
    (forall p, covers s p -> in_rect bb p -> ~ blocked f p) \/ (forall p, covers s p -> in_rect bb p -> strictly_blocked f p).
  Proof.
    intros s irr buf Ok A Ec f Hf Ni. destruct (collect_spec BSok _ _ _ _ _ _ _ (CollWithin (query_of s)) irr buf V E Logic.I) as (new & E1 & _ & _ & M).
    rewrite Ec in E1. injection E1 as E1. rewrite <- (app_nil_r buf) in E1 at 1. apply app_inv_head in E1.
    apply all_or_nothing; [exact Ok|exact A|exact Hf|]. destruct (ohits lvl bb (query_of s) f) eqn:K; [|reflexivity].
    exfalso. apply M; [exists f; auto|auto].
  Qed.
End Look.
