(** The greatest number does not matter to simplification and to surrogates. *)
From Coq Require Import List Bool Arith Lia.
From Verif Require Import Base Num GeoModel TransfModel PolyModel SimplModel BaseProofs Instances RectPolyProofs.
From Coq Require Import Reals Lra.
Import ListNotations.
Local Open Scope R_scope.
#[local] Existing Instance RTrig.

Lemma sr_M M : forall n m o d l, @simpl_rounds R (RNumT Reqb M) n m o d l = @simpl_rounds R RNum n m o d l.
Proof. reflexivity. Qed.
Lemma simplify_M M : forall s m t, @simplify_shape R (RNumT Reqb M) s m t = @simplify_shape R RNum s m t.
Proof. intros. unfold simplify_shape. rewrite sr_M. destruct (simpl_rounds _ _ _ _ _); cbn [rbind]; [apply poly_new_M|reflexivity]. Qed.
#[local] Opaque next_pole.
Lemma gnp_M M : forall s poles, @generate_next_pole R (RNumT Reqb M) s poles = @generate_next_pole R RNum s poles.
Proof. intros. unfold generate_next_pole. rewrite np. reflexivity. Qed.
Lemma mp_M M : forall n pi goal s poles area, @more_poles R (RNumT Reqb M) n pi goal s poles area = @more_poles R RNum n pi goal s poles area.
Proof.
  induction n; intros; cbn [more_poles]; [reflexivity|]. rewrite gnp_M.
  change (@flt R (RNumT Reqb M)) with (@flt R RNum). change (@fadd R (RNumT Reqb M)) with (@fadd R RNum).
  change (@c_area R (RNumT Reqb M)) with (@c_area R RNum).
  destruct (generate_next_pole s poles); cbn [rbind]; [|reflexivity]. destruct (flt _ _); rewrite ?IHn; reflexivity.
Qed.
Lemma addp_M M : forall pi s n g, @additional_poles R (RNumT Reqb M) pi s n g = @additional_poles R RNum pi s n g.
Proof. intros. unfold additional_poles. rewrite mp_M. reflexivity. Qed.
Lemma surrogate_M M : forall c sc s, @generate_surrogate R (RNumT Reqb M) RTrig c sc s = @generate_surrogate R RNum RTrig c sc s.
Proof.
  intros. unfold generate_surrogate, surrogate_new.
  change (@convex_hull_indices R (RNumT Reqb M)) with (@convex_hull_indices R RNum). change (@bounding_circle R (RNumT Reqb M)) with (@bounding_circle R RNum).
  change (@generate_piers R (RNumT Reqb M)) with (@generate_piers R RNum).
  destruct (convex_hull_indices (p_pts s)); cbn [rbind]; [|reflexivity]. destruct (rmapM _ _); cbn [rbind]; [|reflexivity].
  rewrite poly_new_M. destruct (poly_new _); cbn [rbind]; [|reflexivity]. rewrite addp_M. reflexivity.
Qed.
