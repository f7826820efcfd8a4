(** Rectangles as polygons, in exact arithmetic. *)
From Coq Require Import List Bool Arith Lia.
From Verif Require Import Base Num GeoModel HazardModel PolyModel BaseProofs Instances GeoSpec ParityProofs GeoPrimProofs NormProofs ConstructProofs.
From Coq Require Import Reals Lra.
From Verif Require Import GeoModel HazardModel GeoSpec ShapeSpec.
Import ListNotations.
Local Open Scope R_scope.

(** *** the greatest number does not matter to polygons *)
Lemma pv M : @poi_visit R (RNumT Reqb M) = @poi_visit R RNum.
Proof. reflexivity. Qed.
Lemma pl M : forall lvl s poles best q, @poi_levels R (RNumT Reqb M) s poles lvl best q = @poi_levels R RNum s poles lvl best q.
Proof. induction lvl; intros; cbn [poi_levels]; rewrite pv; destruct (rfold _ _ _) as [[? ?]|]; cbn [rbind]; auto. Qed.
Lemma np M : forall d s poles, @next_pole R (RNumT Reqb M) d s poles = @next_pole R RNum d s poles.
Proof. intros. unfold next_pole. change (@pnode_new R (RNumT Reqb M) s poles (@inflate_to_square R (RNumT Reqb M) (p_bbox s))) with (@pnode_new R RNum s poles (@inflate_to_square R RNum (p_bbox s))).
 destruct (pnode_new _ _ _); cbn [rbind]; [rewrite pl|]; reflexivity. Qed.
#[local] Opaque next_pole.
Lemma poly_new_M M : forall l, @poly_new R (RNumT Reqb M) l = @poly_new R RNum l.
Proof. intros. unfold poly_new, calculate_poi, generate_next_pole.
change (@unique_count R (RNumT Reqb M)) with (@unique_count R RNum).
change (@calculate_area R (RNumT Reqb M)) with (@calculate_area R RNum).
change (@calculate_diameter R (RNumT Reqb M)) with (@calculate_diameter R RNum).
change (@bbox_of_points R (RNumT Reqb M)) with (@bbox_of_points R RNum).
change (@feq R (RNumT Reqb M)) with (@feq R RNum).
change (@flt R (RNumT Reqb M)) with (@flt R RNum).
change (@fneg R (RNumT Reqb M)) with (@fneg R RNum).
change (@f0 R (RNumT Reqb M)) with (@f0 R RNum).
destruct (rassert _); cbn [rbind]; [|reflexivity]. destruct (rassert _); cbn [rbind]; [|reflexivity]. destruct (feq _ _); [reflexivity|].
destruct (if flt _ _ then _ else _) as [pts area].
destruct (calculate_diameter _); cbn [rbind]; [|reflexivity]. rewrite np. reflexivity. Qed.

(** *** rectangles as polygons *)
Section Rect.
  #[local] Existing Instance RNum.
  Lemma rect_pts : forall (r : rrect) s, poly_of_rect r = Ok s -> x_min r <> x_max r /\ y_min r <> y_max r /\
    let l := [Pt (x_min r) (y_min r); Pt (x_max r) (y_min r); Pt (x_max r) (y_max r); Pt (x_min r) (y_max r)] in
    (p_pts s = l \/ p_pts s = rev l) /\ (proper r -> p_pts s = l).
  Proof.
    intros r s H. unfold poly_of_rect, poly_new in H.
    apply rbind_ok in H as (? & _ & H). apply rbind_ok in H as (? & _ & H).
    rewrite area_ok in H.
    match type of H with context [shoelace ?l] => assert (Ea : shoelace l = (x_max r - x_min r) * (y_max r - y_min r)) by (unfold shoelace; cbn; lra) end.
    rewrite Ea in H. clear Ea. destruct (feq _ _) eqn:Eq in H; [discriminate|].
    assert (Nz : (x_max r - x_min r) * (y_max r - y_min r) <> 0).
    { intros Z. rewrite Z in Eq. cbn in Eq. unfold Reqb in Eq. destruct (Req_EM_T 0 0); [discriminate|auto]. }
    split; [intros Z; apply Nz; rewrite Z; ring|]. split; [intros Z; apply Nz; rewrite Z; ring|].
    cbv zeta. destruct (flt _ _) eqn:El in H;
      apply rbind_ok in H as (? & _ & H); apply rbind_ok in H as (? & _ & H); injection H as <-; cbn [p_pts].
    - split; [right; reflexivity|]. intros (A & B). exfalso. cbn in El. apply Rltb_spec in El. nra.
    - split; [left; reflexivity|reflexivity].
  Qed.
  Lemma rect_spikes : forall a b c d, a <> c -> b <> d -> no_spikes [Pt a b; Pt c b; Pt c d; Pt a d] /\ no_spikes [Pt a d; Pt c d; Pt c b; Pt a b].
  Proof.
    intros a b c d X Y. split; intros e f He Hf; simpl in He, Hf; unfold edet, edot;
    repeat (destruct He as [<-|He]; [repeat (destruct Hf as [<-|Hf]; [cbn [px py es ee]; intros Q Dt; try (injection Q; intros); exfalso; first [congruence | apply X; nra | apply Y; nra | assert ((c - a) * (d - b) = 0) as Z by lra; apply Rmult_integral in Z as [Z|Z]; [apply X|apply Y]; lra]|]); destruct Hf|]);
    destruct He.
  Qed.
  Lemma rect_good : forall (r : rrect) s, poly_of_rect r = Ok s -> good_shape s.
  Proof.
    intros r s H. pose proof (rect_pts r s H) as (X & Y & P & _). apply (new_good_shape _ _ H).
    destruct (rect_spikes _ _ _ _ X Y) as (A & B). cbn in P. destruct P as [-> | ->]; assumption.
  Qed.
End Rect.

