(** A polygon with the centre of its bounding box inside is always constructed; so are
    rectangles. *)
From Coq Require Import Reals List Bool Arith Lra Lia Psatz Permutation.
From Verif Require Import Base Num GeoModel HazardModel QTModel TransfModel PolyModel GeoSpec ShapeSpec PlaceSpec HpgSpec
  BaseProofs QTProofs ParityProofs GeoPrimProofs GeoRectProofs PipProofs RegionProofs RigidProofs XformProofs NormProofs BoundProofs HullProofs PoleProofs ConstructProofs PlaceExampleProofs.
Import ListNotations.
Local Open Scope R_scope.
#[local] Existing Instance RNum.
#[local] Existing Instance RTrig.

Lemma square_centre : forall r : rrect, r_centroid (inflate_to_square r) = r_centroid r.
Proof.
  intros [a b c d]. unfold inflate_to_square, r_centroid. cbn [x_min x_max y_min y_max]. unfold r_width, r_height. cbn.
  destruct (Rltb (d - b) (c - a)); [cbn; f_equal; field|]. destruct (Rltb (c - a) (d - b)); cbn; f_equal; field.
Qed.
Lemma centre_found : forall s poles depth r, sound_poly s -> p_pts s <> [] -> (forall k, In k poles -> 0 <= crad k) ->
  0 < r -> clear_of (p_pts s) poles (r_centroid (p_bbox s)) r -> exists c, next_pole depth s poles = Ok c.
Proof.
  intros s poles depth r So Ne Pn R0 C. pose proof So as (_ & (Pr & _)). unfold next_pole.
  destruct (new_good s poles So Ne Pn _ (inflate_proper _ Pr)) as (root & E & Eb & G). rewrite E. cbn [rbind].
  assert (D : 0 < pn_dist root).
  { destruct G as (_ & _ & _ & (_ & S2)). specialize (S2 _ _ C). rewrite Eb, square_centre, edist_refl in S2. lra. }
  assert (K : exists b, poi_levels s poles depth None [root] = Ok b /\ 0 < best_dist b).
  { set (rad := r_diameter (inflate_to_square (p_bbox s)) / 2) in *.
    assert (V : forall lvl, exists b q, rfold (poi_visit s poles lvl) [root] (None, []) = Ok (b, q) /\ 0 < best_dist b /\ best_ok s poles b /\ Forall (node_good s poles (rad / 2)) q).
    { intros lvl. destruct (visit_ok s poles So Ne Pn lvl rad None [] root G Logic.I (Forall_nil _)) as (b & q & Ev & B1 & Q1 & _).
      exists b, q. cbn [rfold]. rewrite Ev. cbn [rbind]. split; [reflexivity|]. split; [|auto].
      assert (Eb' : b = Some (Ci (r_centroid (pn_bbox root)) (pn_dist root))).
      { clear -Ev D. unfold poi_visit in Ev. cbn [best_dist f0 flt RNum RNumT] in Ev. rewrite (proj2 (Rltb_spec 0 (pn_dist root)) D) in Ev.
        destruct (Rltb _ _) in Ev; [|congruence]. destruct lvl; [congruence|]. destruct (rmapM _ _) in Ev; cbn [rbind] in Ev; congruence. }
      rewrite Eb'. exact D. }
    destruct depth as [|lv]; cbn [poi_levels]; destruct (V 0%nat) as (b0 & q0 & E0 & P0 & _).
    - rewrite E0. cbn [rbind]. eauto.
    - destruct (V (S lv)) as (b & q & E1 & P1 & B1 & Q1). rewrite E1. cbn [rbind].
      destruct (levels_ok s poles So Ne Pn lv (rad / 2) b q Q1 B1) as (b' & E2 & _ & Mo & _). exists b'. split; [exact E2|lra]. }
  destruct K as (b & Eb' & P). rewrite Eb'. cbn [rbind]. destruct b as [c|]; [exists c; reflexivity|]. cbn [best_dist f0 RNum RNumT] in P. lra.
Qed.

#[local] Opaque next_pole MAX_POI_TREE_DEPTH.
Theorem new_works_centre : forall l bb r, (3 <= length l)%nat -> NoDup l -> shoelace l <> 0 ->
  smallest_box bb l -> 0 < r -> clear_of l [] (Pt ((x_min bb + x_max bb) / 2) ((y_min bb + y_max bb) / 2)) r -> exists s, poly_new l = Ok s.
Proof.
  intros l bb r L ND A B R0 C. unfold poly_new.
  destruct (Nat.leb 3 (length l)) eqn:Q; [|apply Nat.leb_nle in Q; lia]. cbn [rassert rbind].
  rewrite (full_unique l [] ND) by (intros x _ []). rewrite Nat.eqb_refl. cbn [rassert rbind]. rewrite area_ok. cbn [feq flt fneg RNum RNumT f0].
  destruct (Reqb (shoelace l) 0) eqn:Z; [apply Reqb_spec in Z; contradiction|].
  set (l' := if Rlt_dec (shoelace l) 0 then rev l else l) in *.
  assert (H : exists a, (if Rltb (shoelace l) 0 then (rev l, - shoelace l) else (l, shoelace l)) = (l', a)).
  { unfold l', Rltb. destruct (Rlt_dec (shoelace l) 0); eauto. }
  destruct H as (a & ->).
  assert (L' : (3 <= length l')%nat) by (unfold l'; destruct (Rlt_dec _ _); [rewrite rev_length|]; exact L).
  assert (ND' : NoDup l') by (unfold l'; destruct (Rlt_dec _ _); [apply NoDup_rev|]; exact ND).
  assert (A' : shoelace l' <> 0) by (unfold l'; destruct (Rlt_dec _ _); [rewrite shoelace_rev|]; lra).
  assert (B' : bbox_of_points l' = bb).
  { apply (box_unique _ _ l'); [apply bbox_ok; intros E; rewrite E in L'; cbn in L'; lia|]. unfold l'; destruct (Rlt_dec _ _); [apply box_rev|]; exact B. }
  assert (C' : clear_of l' [] (Pt ((x_min bb + x_max bb) / 2) ((y_min bb + y_max bb) / 2)) r) by (unfold l'; destruct (Rlt_dec _ _); [apply clear_rev|]; exact C).
  destruct (diameter_total l' ltac:(lia)) as (d & ->). cbn [rbind].
  destruct (dummy_sound l' d ND' L' A') as (So & NE).
  destruct (centre_found _ [] MAX_POI_TREE_DEPTH r So NE ltac:(intros k []) R0) as (c & Ec).
  { cbn [p_pts p_bbox]. rewrite B'. exact C'. }
  unfold calculate_poi, generate_next_pole. cbn [f0 RNum RNumT]. rewrite Ec. cbn [rbind]. eauto.
Qed.
Lemma rect_works : forall r : rrect, proper r -> exists s, poly_of_rect r = Ok s.
Proof.
  intros [a b c d] (X & Y). cbn [x_min x_max y_min y_max] in X, Y. unfold poly_of_rect. cbn [x_min x_max y_min y_max].
  apply (new_works_centre _ (Rc a b c d) (Rmin ((c - a) / 2) ((d - b) / 2))).
  - cbn. lia.
  - repeat constructor; cbn [In]; intros H; repeat (destruct H as [H|H]; [injection H; intros; lra|]); exact H.
  - unfold shoelace, total, ring; cbn. intros H. assert (0 < (c - a) * (d - b)) by (apply Rmult_lt_0_compat; lra). lra.
  - unfold smallest_box, in_rect. cbn [x_min x_max y_min y_max]. split; [|split; [|split; [|split]]].
    + intros p H. cbn [In] in H. repeat (destruct H as [<-|H]; [cbn; lra|]). destruct H.
    + exists (Pt a b). cbn; tauto.
    + exists (Pt c b). cbn; tauto.
    + exists (Pt a b). cbn; tauto.
    + exists (Pt c d). cbn; tauto.
  - apply Rmin_glb_lt; lra.
  - cbn [x_min x_max y_min y_max]. split; [|split; [|intros k []]].
    + apply (proj2 (rbox_inside a b c d 0 (Pt ((a + c) / 2) ((b + d) / 2)) ltac:(cbn; lra) ltac:(cbn; lra))).
    + intros q (e & He & (t & Ht & ->)). cbn [In path_edges ring] in He. set (m := Pt ((a + c) / 2) ((b + d) / 2)).
      set (w := Rmin ((c - a) / 2) ((d - b) / 2)). pose proof (Rmin_l ((c - a) / 2) ((d - b) / 2)) as W1. pose proof (Rmin_r ((c - a) / 2) ((d - b) / 2)) as W2. fold w in W1, W2.
      pose proof (edist_coord m (at_t e t)) as (X' & Y'). 
      repeat (destruct He as [<-|He]; [unfold at_t, m in *; cbn [px py es ee] in *; revert X' Y'; unfold Rabs; repeat destruct Rcase_abs; lra|]). destruct He.
Qed.
