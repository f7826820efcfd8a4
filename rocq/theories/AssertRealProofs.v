(** Debug builds in exact arithmetic: every proper box can be subdivided. *)
From Coq Require Import List Bool Arith ZArith Lia Permutation.
From Verif Require Import Base Num GeoModel HazardModel QTModel TransfModel HpgModel CdeModel CdeSpec AssertModel AssertSpec
  GeoSpec ParityProofs GeoPrimProofs GeoRectProofs BaseProofs.
From Coq Require Import Reals Lra.
From Verif Require Import GeoModel HazardModel CdeModel CdeSpec GeoSpec AssertModel AssertSpec.
Import ListNotations.
Local Open Scope R_scope.
#[local] Existing Instance RNum.

Lemma rect_ok_proper : forall r : rect R, rect_ok r = true <-> proper r.
Proof. intros r. unfold rect_ok, proper. rewrite andb_true_iff. unr. rewrite !Rltb_spec. reflexivity. Qed.
Lemma Reqb_refl : forall x, Reqb x x = true.
Proof. intros x. apply Reqb_spec. reflexivity. Qed.
Lemma Reqb_lt : forall x y, x < y -> Reqb x y = false /\ Reqb y x = false.
Proof. intros x y H. split; apply Reqb_nspec; lra. Qed.
Lemma quadrants_fit : forall r, proper r -> quadrants_valid (quadrants r) = true.
Proof.
  intros r P. rewrite (quadrants_eq r P). destruct P as (Px & Py).
  assert (M1 : x_min r < mid_x r < x_max r) by (unfold mid_x; lra).
  assert (M2 : y_min r < mid_y r < y_max r) by (unfold mid_y; lra).
  generalize dependent (mid_x r). generalize dependent (mid_y r). intros my M2 mx M1.
  destruct r as [a b c d]. cbn [x_min x_max y_min y_max] in *.
  destruct (Reqb_lt a mx ltac:(lra)) as (E1 & E2). destruct (Reqb_lt mx c ltac:(lra)) as (E3 & E4). destruct (Reqb_lt a c ltac:(lra)) as (E5 & E6).
  destruct (Reqb_lt b my ltac:(lra)) as (E7 & E8). destruct (Reqb_lt my d ltac:(lra)) as (E9 & E10). destruct (Reqb_lt b d ltac:(lra)) as (E11 & E12).
  unfold quadrants_valid, shared_corners. cbn [forallb quadrant_neighbors q4get qa qb qc qd corners q4list x_min x_max y_min y_max existsb filter length].
  unfold pt_eq. cbn [px py]. unr.
  rewrite ?Reqb_refl, ?E1, ?E2, ?E3, ?E4, ?E5, ?E6, ?E7, ?E8, ?E9, ?E10, ?E11, ?E12. reflexivity.
Qed.
Lemma proper_divides : forall depth r, proper r -> divides depth r.
Proof.
  induction depth as [|l IH]; intros r P; cbn [divides]; [exact I|]. split; [|split].
  - apply forallb_forall. intros q Hq. apply rect_ok_proper.
    assert (X : exists i, (i < 4)%nat /\ q = q4get (quadrants r) i).
    { destruct (quadrants r) as [q0 q1 q2 q3]. cbn in Hq. destruct Hq as [<-|[<-|[<-|[<-|[]]]]]; [exists 0%nat|exists 1%nat|exists 2%nat|exists 3%nat]; split; try lia; reflexivity. }
    destruct X as (i & Hi & ->). apply quad_i; assumption.
  - apply quadrants_fit, P.
  - intros i Hi. apply IH, quad_i; assumption.
Qed.
