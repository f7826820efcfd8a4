(** Engines for the statements about filters and looking up shapes. *)
From Coq Require Import List Bool Arith Lia Permutation.
From Verif Require Import Base Num GeoModel HazardModel QTModel TransfModel HpgModel CdeModel CdeSpec Instances
  BaseProofs HazVecProofs QTProofs CdeProofs CdeOpsProofs CdeHistProofs CdeThmProofs.
From Coq Require Import Reals Lra.
From Verif Require Import GeoModel HazardModel QTModel CdeModel CdeSpec GeoSpec PlaceSpec ParityProofs GeoPrimProofs GeoRectProofs PipProofs RegionProofs QTGeoProofs
  CdeGeoProofs CdeGeoThmProofs PlaceExampleProofs QuerySpec QueryProofs.
Import ListNotations.
Local Open Scope R_scope.
#[local] Existing Instance RNum.
#[local] Existing Instance NatEqD.
#[local] Existing Instance LinSearch.

(** a small square near the corner of the bin and a disk inside it *)
Section Small.
  Variable a : R.
  Hypothesis Ha : 0 < a.
  Definition small : poly R := rbox a a (3 * a) (3 * a) (a / 2).
  Definition dot : rcircle := Ci (Pt (2 * a) (2 * a)) (a / 2).
  Lemma dot_in : forall p, in_disk dot p -> 3 / 2 * a <= px p <= 5 / 2 * a /\ 3 / 2 * a <= py p <= 5 / 2 * a.
  Proof.
    intros p H. unfold in_disk in H. destruct (edist_coord p (ccen dot)) as (X & Y). cbn in X, Y, H.
    apply Rabs_le_between in X || idtac. unfold Rabs in X, Y. destruct (Rcase_abs _), (Rcase_abs _); lra.
  Qed.
  Lemma dot_clear : forall g p, In g (ring (p_pts small)) -> on_seg g p -> ~ in_disk dot p.
  Proof.
    intros g p Hg (t & Ht & ->) H. apply dot_in in H. cbn in Hg.
    repeat (destruct Hg as [<-|Hg]; [unfold at_t in H; cbn in H; nra|]). destruct Hg.
  Qed.
  Lemma quads0 : forall L, 0 < L -> quadrants (Rc 0 0 L L) = Q4 (Rc (L/2) (L/2) L L) (Rc 0 (L/2) (L/2) L) (Rc 0 0 (L/2) (L/2)) (Rc (L/2) 0 L (L/2)).
  Proof.
    intros L HL. unfold quadrants, corners, q4map, e_bbox, e_xmin, e_ymin, e_xmax, e_ymax, r_centroid. cbn. unr.
    replace ((0 + L) / (1 + 1)) with (L / 2) by field.
    rewrite !(Rmin_left 0 (L / 2)), !(Rmax_right 0 (L / 2)), !(Rmin_right L (L / 2)), !(Rmax_left L (L / 2)) by lra. reflexivity.
  Qed.
  Definition other_side : R -> rrect -> Prop := fun h r => h <= x_min r \/ h <= y_min r.
  Lemma apart : forall h r, 3 * a < h -> other_side h r -> x_min r <= x_max r -> y_min r <= y_max r -> relation_to (p_bbox small) r = Disjoint.
  Proof.
    intros h r Hh O N1 N2. unfold relation_to. replace (rr_collides (p_bbox small) r) with false; [reflexivity|]. symmetry.
    destruct (rr_collides (p_bbox small) r) eqn:X; [|reflexivity]. exfalso. apply rr_collides_iff in X as (p & (A1 & A2) & (B1 & B2)).
    - cbn in *. destruct O; lra.
    - split; cbn; lra.
    - split; assumption.
  Qed.
  Lemma hidden : forall lvl L (h : qth R nat), 4 * a * 2 ^ lvl <= L -> q_pres h = PPartial (Par (Arc 0 small) REAll) ->
    hits lvl (Rc 0 0 L L) (circle_query dot) h = false.
  Proof.
    induction lvl as [|l IH]; intros L h HL Eh; cbn [hits]; rewrite Eh.
    - apply andb_false_iff. right. unfold pcol. cbn [pa_edges pa_shape a_obj]. apply andb_false_iff. right.
      destruct (existsb _ _) eqn:X; [|reflexivity]. exfalso. apply existsb_exists in X as (i & Hi & X). cbn [qy_edge circle_query] in X.
      apply ce_collides_iff in X as (p & Hp & Hs); [|cbn; lra]. refine (dot_clear _ p _ Hs Hp). apply in_ring_index.
      + apply sound_wf, good_sound, rbox_good; lra.
      + exists i. split; [|reflexivity]. apply in_seq in Hi. lia.
    - apply andb_false_iff. right. cbn [pow] in HL. pose proof (pow_lt 2 l ltac:(lra)) as Pw.
      assert (P1 : 1 <= 2 ^ l) by (apply pow_R1_Rle; lra). assert (HL2 : 4 * a * 2 ^ l <= L / 2) by lra. assert (H4 : 4 * a <= L / 2) by nra.
      assert (Ec : constrict all_alive h (quadrants (Rc 0 0 L L)) = Ok (Q4 None None (Some h) None)).
      { rewrite quads0 by lra. unfold constrict. rewrite Eh. unfold shape_arc, all_alive. cbn [rbind pa_shape a_ptr a_obj pa_edges].
        unfold q4map. cbn [q4list qa qb qc qd].
        rewrite (apart (L / 2) (Rc (L / 2) (L / 2) L L)), (apart (L / 2) (Rc 0 (L / 2) (L / 2) L)), (apart (L / 2) (Rc (L / 2) 0 L (L / 2)));
          try (cbn; unfold other_side; cbn; lra).
        replace (relation_to (p_bbox small) (Rc 0 0 (L / 2) (L / 2))) with Enclosed.
        - cbn. destruct h as [e p b]. cbn in *. subst p. reflexivity.
        - symmetry. unfold relation_to. replace (rr_collides _ _) with true.
          + cbn. unr. replace (Rleb a 0) with false by (symmetry; apply not_true_iff_false; rewrite Rleb_spec; lra). cbn [andb].
            repeat match goal with |- context [Rleb ?x ?y] => replace (Rleb x y) with true by (symmetry; apply Rleb_spec; lra) end. reflexivity.
          + symmetry. apply rr_collides_iff; [split; cbn; lra|split; cbn; lra|]. exists (Pt a a). split; split; cbn; lra. }
      unfold con. rewrite Ec. cbn [existsb q4get qa qb qc qd]. rewrite orb_false_r. rewrite !orb_false_l || cbn [orb].
      rewrite quads0 by lra. cbn [q4get qc]. apply IH; assumption.
  Qed.
End Small.
Definition scale (lvl : nat) : R := 10 / (4 * 2 ^ lvl).
Definition sm_ops (lvl : nat) : list (op R nat) := [OReg (Hz (PlacedItem 1 0%nat) (Arc 0 (small (scale lvl))) true)].
Lemma scale_pos : forall lvl, 0 < scale lvl <= 5 / 2.
Proof.
  intros lvl. unfold scale. assert (P1 : 1 <= 2 ^ lvl) by (apply pow_R1_Rle; lra). split; [apply Rdiv_lt_0_compat; lra|].
  apply (Rmult_le_reg_r (4 * 2 ^ lvl)); [lra|]. unfold Rdiv at 1. rewrite Rmult_assoc, Rinv_l by lra. lra.
Qed.
Lemma sm_valid : forall lvl, valid ex_st (sm_ops lvl).
Proof.
  intros lvl. pose proof (scale_pos lvl) as Sp. pose proof ex_valid as (S & _). split; [exact S|].
  exists (fun e => match e with BinExterior => (rbox 0 0 10 10 5, true) | _ => (small (scale lvl), true) end).
  simpl. split; [|exact Logic.I]. split; [apply good_wf, rbox_good; lra|]. split; [reflexivity|]. split; [intros [K|[]]; discriminate|intros []].
Qed.
Lemma sm_good : forall lvl, good_facts (facts ex_st (sm_ops lvl)).
Proof. intros lvl. pose proof (scale_pos lvl). intros f [<-|[<-|[]]]; apply rbox_good; lra. Qed.
Lemma sm_framed : forall lvl, framed ex_bb (facts ex_st (sm_ops lvl)).
Proof.
  intros lvl. split; [split; simpl; lra|]. intros f [<-|[<-|[]]] H; [|discriminate]. unfold f_poly, inflate_to_square, ex_bb. simpl. unr.
  rdestr (10 - 0) (10 - 0); [lra|]. f_equal; lra.
Qed.
(** the disk lies inside the item, and nothing is found, whatever the depth *)
Lemma unseen : forall lvl, exists c sn f,
  valid ex_st (sm_ops lvl) /\ engine ex_bb ex_st lvl 0 (sm_ops lvl) = Ok (c, sn) /\
  framed ex_bb (facts ex_st (sm_ops lvl)) /\ good_facts (facts ex_st (sm_ops lvl)) /\
  In f (facts ex_st (sm_ops lvl)) /\ (forall p, covers (QDisk (dot (scale lvl))) p -> in_rect ex_bb p /\ strictly_blocked f p) /\
  collect c (CollWithin (query_of (QDisk (dot (scale lvl))))) [] [] = Ok [].
Proof.
  intros lvl. pose proof (scale_pos lvl) as Sp. set (a := scale lvl) in *. destruct (sm_valid lvl) as (S & shp & O).
  assert (T : exists c sn, engine ex_bb ex_st lvl 0 (sm_ops lvl) = Ok (c, sn)) by (eapply engine_total; [exact LinSearch_ok|exact S|exact O]). destruct T as (c & sn & E).
  exists c, sn, (PlacedItem 1 0%nat, small a, true). pose proof (sm_valid lvl) as V.
  split; [exact V|]. split; [exact E|]. split; [apply sm_framed|]. split; [apply sm_good|]. split; [right; left; reflexivity|]. split.
  - intros p Hp. cbn in Hp. apply (dot_in a) in Hp; [|lra]. split; [split; cbn; lra|]. unfold strictly_blocked. cbn. apply (rbox_inside a a (3 * a) (3 * a) (a / 2) p); lra.
  - destruct (collect_spec LinSearch_ok _ _ _ _ _ _ _ (CollWithin (query_of (QDisk (dot a)))) [] [] V E Logic.I) as (new & E1 & _ & A & _).
    cbn [app] in E1. rewrite E1. f_equal. destruct new as [|e new]; [reflexivity|]. exfalso.
    destruct (A e (or_introl eq_refl)) as (_ & _ & [(f & Hf & Ef & K)|(_ & _ & K)]).
    + destruct Hf as [<-|[<-|[]]]; cbn [khit] in K.
      * assert (Hf : In (fact_of (Hz BinExterior (Arc 0 (rbox 0 0 10 10 5)) true)) (facts ex_st (sm_ops lvl))) by (left; reflexivity).
        destruct (shape_sound ex_bb ex_st lvl (sm_ops lvl) (sm_framed lvl) (fun f Hf => good_sound _ (sm_good lvl f Hf)) (QDisk (dot a)) _ ltac:(cbn; lra) Hf K) as (p & Cp & Bp).
        cbn in Cp. apply (dot_in a) in Cp; [|lra]. unfold blocked in Bp. cbn in Bp.
        destruct (rbox_inside 0 0 10 10 5 p) as (N & Eo); [lra|lra|]. destruct Bp as [Bp|Bp]; [contradiction|]. cbn in Eo. rewrite Eo in Bp. discriminate.
      * unfold ohits in K. cbn [query_of] in K. rewrite (hidden a ltac:(lra) lvl 10) in K; [discriminate| |reflexivity].
        unfold a, scale. pose proof (pow_lt 2 lvl ltac:(lra)). apply Req_le. field. lra.
    + apply K. cbn [centre_inside]. apply rp_collides_iff. cbn. split; cbn; lra.
Qed.
(** with the item [5,7]^2: a disk on its corner, a box between bin and item *)
Lemma ex_lookup : forall lvl, exists c sn,
  engine ex_bb ex_st lvl 0 ex_ops = Ok (c, sn) /\ shape_ok (QDisk (Ci (Pt 5 5) 1)) /\ shape_ok (QBox (Rc 1 1 4 9)) /\
  (exists f, In f (facts ex_st ex_ops) /\ on_border (p_pts (f_poly f)) (Pt 5 5)) /\
  collect c (CollWithin (query_of (QDisk (Ci (Pt 5 5) 1)))) [] [] = Ok [PlacedItem 1 0%nat] /\
  collect c (CollWithin (query_of (QBox (Rc 1 1 4 9)))) [] [] = Ok [].
Proof.
  intros lvl. destruct (ex_engine lvl) as (c & sn & E). exists c, sn. split; [exact E|].
  assert (O1 : shape_ok (QDisk (Ci (Pt 5 5) 1))) by (cbn; lra). assert (O2 : shape_ok (QBox (Rc 1 1 4 9))) by (split; cbn; lra).
  split; [exact O1|]. split; [exact O2|].
  set (fi := (PlacedItem 1 0%nat, ex_item, true) : fact R nat). assert (Hi : In fi (facts ex_st ex_ops)) by (right; left; reflexivity).
  assert (Bi : on_border (p_pts (f_poly fi)) (Pt 5 5)).
  { exists (Ed (Pt 5 5) (Pt 7 5)). split; [left; reflexivity|]. exists 0. split; [lra|]. apply pt_ext; cbn; lra. }
  split; [exists fi; auto|]. pose proof (fun f Hf => good_sound _ (ex_good f Hf)) as Sf.
  assert (Nx : forall s p, shape_ok s -> (covers s p -> 0 < px p < 10 /\ 0 < py p < 10) -> covers s p ->
    blocked (fact_of (Hz BinExterior (Arc 0 (rbox 0 0 10 10 5)) true) : fact R nat) p -> False).
  { intros s p _ Hs Cp Bp. destruct (Hs Cp) as (X & Y). unfold blocked in Bp. cbn in Bp.
    destruct (rbox_inside 0 0 10 10 5 p) as (Nb & Eo); [lra|lra|]. destruct Bp as [Bp|Bp]; [contradiction|]. cbn in Eo. rewrite Eo in Bp. discriminate. }
  assert (Dk : forall p, in_disk (Ci (Pt 5 5) 1) p -> 4 <= px p <= 6 /\ 4 <= py p <= 6).
  { intros p H. unfold in_disk in H. destruct (edist_coord p (Pt 5 5)) as (X & Y). cbn in X, Y, H. unfold Rabs in X, Y. destruct (Rcase_abs _), (Rcase_abs _); lra. }
  split.
  - destruct (border_found LinSearch_ok ex_bb ex_st lvl 0 ex_ops c sn ex_valid E ex_framed Sf _ fi (Pt 5 5) [] [] O1 Logic.I Hi ltac:(intros []) Bi) as (_ & e & new & Ec).
    + cbn. unfold in_disk. cbn. rewrite edist_refl. lra.
    + split; cbn; lra.
    + destruct (looked_up LinSearch_ok ex_bb ex_st lvl 0 ex_ops c sn ex_valid E ex_framed Sf _ [] [] O1) as (new' & Ec' & ND & A).
      rewrite Ec in Ec'. injection Ec' as Ec'. cbn [app] in *. subst new'. rewrite Ec.
      assert (Eq : forall x, In x (e :: new) -> x = PlacedItem 1 0%nat).
      { intros x Hx. destruct (A x Hx) as (_ & _ & [(f & p & Hf & Ef & Cp & Bp)|(_ & _ & Nc)]); [|exfalso; apply Nc; split; cbn; lra].
        destruct Hf as [<-|[<-|[]]]; [|symmetry; exact Ef]. exfalso. apply (Nx (QDisk (Ci (Pt 5 5) 1)) p O1); [|exact Cp|exact Bp]. intros Cq. apply Dk in Cq. lra. }
      rewrite (Eq e (or_introl eq_refl)) in *. destruct new as [|y new]; [reflexivity|]. rewrite (Eq y (or_intror (or_introl eq_refl))) in ND.
      inversion ND as [|? ? Nd _]. exfalso. apply Nd. left. reflexivity.
  - destruct (looked_up LinSearch_ok ex_bb ex_st lvl 0 ex_ops c sn ex_valid E ex_framed Sf _ [] [] O2) as (new & Ec & ND & A).
    rewrite Ec. cbn [app]. f_equal. destruct new as [|e new]; [reflexivity|]. exfalso.
    destruct (A e (or_introl eq_refl)) as (_ & _ & [(f & p & Hf & Ef & Cp & Bp)|(_ & _ & Nc)]); [|apply Nc; split; cbn; lra].
    destruct Hf as [<-|[<-|[]]].
    + apply (Nx (QBox (Rc 1 1 4 9)) p O2); [|exact Cp|exact Bp]. intros (X & Y). cbn in X, Y. lra.
    + unfold blocked in Bp. cbn in Bp. change (region (p_pts (rbox 5 5 7 7 1)) p) in Bp. apply rbox_region in Bp; [|lra|lra].
      destruct Bp as (X' & Y'), Cp as (X & Y). cbn in *. lra.
Qed.
Lemma unseen_all : forall lvl, exists (st : list (hazard R nat)) ops bb c sn f k,
  valid st ops /\ engine bb st lvl 0 ops = Ok (c, sn) /\ framed bb (facts st ops) /\ good_facts (facts st ops) /\
  In f (facts st ops) /\ 0 < crad k /\ (forall p, covers (QDisk k) p -> in_rect bb p /\ strictly_blocked f p) /\
  collect c (CollWithin (query_of (QDisk k))) [] [] = Ok [].
Proof.
  intros lvl. destruct (unseen lvl) as (c & sn & f & V & E & Fr & G & Hf & Hp & Ec). exists ex_st, (sm_ops lvl), ex_bb, c, sn, f, (dot (scale lvl)).
  repeat (split; [assumption|]). split; [|auto]. pose proof (scale_pos lvl). cbn. lra.
Qed.
