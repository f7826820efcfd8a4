(** Two polygons whose borders do not meet: one is inside the other, or they are
    apart. *)
From Coq Require Import Reals List Bool Lra Psatz Lia.
From Verif Require Import Base Num GeoModel HazardModel QTModel BaseProofs QTProofs GeoSpec ParityProofs
  GeoPrimProofs GeoRectProofs PipProofs TouchProofs.
Import ListNotations.
Local Open Scope R_scope.
#[local] Existing Instance RNum.

Lemma good_sound : forall s, good_shape s -> sound_poly s.
Proof. intros s G. split; [apply gs_edges; exact G|]. split; [apply gs_proper; exact G|apply (gs_box s G)]. Qed.
Lemma good_wf : forall s, good_shape s -> wf_poly s.
Proof. intros s G. apply wf_ring. apply gs_edges. exact G. Qed.

Lemma on_seg_dec : forall e p, on_seg e p \/ ~ on_seg e p.
Proof.
  intros e p. destruct (e_dist_ok e p) as ((q & Oq & Eq) & B). destruct (Req_dec (e_dist e p) 0) as [Z|Z].
  - left. rewrite Z in Eq.
    assert (p = q); [|subst; exact Oq]. pose proof (edist_sq p q) as S. rewrite Eq in S.
    assert (X : (px p - px q) ^ 2 + (py p - py q) ^ 2 = 0) by lra. apply sumsq0 in X. apply pt_ext; lra.
  - right. intros O. apply Z. pose proof (B p O) as L. rewrite edist_refl in L. pose proof (edist_nonneg p q). lra.
Qed.
Lemma on_border_dec : forall l p, on_border l p \/ ~ on_border l p.
Proof.
  intros l p. unfold on_border. generalize (ring l) as L. induction L as [|e L IH].
  - right. intros (f & [] & _).
  - destruct (on_seg_dec e p) as [O|O]; [left; exists e; split; [left; reflexivity|exact O]|].
    destruct IH as [(f & Hf & O')|N]; [left; exists f; split; [right; exact Hf|exact O']|].
    right. intros (f & [<-|Hf] & O'); [contradiction|]. apply N. eauto.
Qed.

Section Two.
  Variables l m : list rpoint.
  Hypothesis Dj : forall x, on_border l x -> on_border m x -> False.
  Lemma apart : (forall x, on_border m x -> even_odd l x = false) -> (forall x, on_border l x -> even_odd m x = false) ->
    forall p, region l p -> region m p -> False.
  Proof.
    intros A B p [Bl|El] [Bm|Em].
    - eauto.
    - rewrite (B p Bl) in Em. discriminate.
    - rewrite (A p Bm) in El. discriminate.
    - destruct (first_hit l m p El Dj) as [(x & Bx & E)|(x & Bx & E)].
      + rewrite (B x Bx), Em in E. discriminate.
      + rewrite (A x Bx) in E. discriminate.
  Qed.
  Lemma within : (forall x, on_border l x -> even_odd m x = true) -> (forall x, on_border m x -> even_odd l x = false) ->
    forall p, region l p -> interior m p.
  Proof.
    intros A B p [Bl|El].
    - split; [intros Bm; eauto|auto].
    - split.
      + intros Bm. rewrite (B p Bm) in El. discriminate.
      + destruct (first_hit l m p El Dj) as [(x & Bx & E)|(x & Bx & E)].
        * rewrite <- E. auto.
        * rewrite (B x Bx) in E. discriminate.
  Qed.
  (** a border inside the other polygon: the box is strictly smaller *)
  Lemma nested_boxes : forall rl rm x, smallest_box rl l -> smallest_box rm m ->
    on_border m x -> even_odd l x = true ->
    x_min rl < x_min rm /\ x_max rm < x_max rl /\ y_min rl < y_min rm /\ y_max rm < y_max rl.
  Proof.
    intros rl rm x (Sl & _) (Sm & (v1 & I1 & E1) & (v2 & I2 & E2) & (v3 & I3 & E3) & (v4 & I4 & E4)) Bx Ex.
    assert (V : forall v, In v m -> in_open_rect rl v).
    { intros v Hv. apply vertex_border in Hv. apply (even_odd_box rl l v Sl); [intros Bl; eauto|].
      rewrite (border_one_side m l (fun x A B => Dj x B A) v x Hv Bx). exact Ex. }
    pose proof (V v1 I1) as (V1 & _). pose proof (V v2 I2) as (V2 & _). pose proof (V v3 I3) as (_ & V3). pose proof (V v4 I4) as (_ & V4).
    lra.
  Qed.
End Two.

(** the centre of [s] decides between inside and outside *)
Lemma centre_decides : forall l m rl rm c, (forall x, on_border l x -> on_border m x -> False) ->
  smallest_box rl l -> smallest_box rm m -> interior l c ->
  ~ (x_min rl < x_min rm /\ x_max rm < x_max rl /\ y_min rl < y_min rm /\ y_max rm < y_max rl) ->
  ~ on_border m c /\ (forall x, on_border m x -> even_odd l x = false) /\
  (forall x, on_border l x -> even_odd m x = even_odd m c).
Proof.
  intros l m rl rm c Dj Sl Sm (Nc & Ec) NB.
  assert (A : forall x, on_border m x -> even_odd l x = false).
  { intros x Bx. destruct (even_odd l x) eqn:E; [|reflexivity]. exfalso. apply NB.
    apply (nested_boxes l m Dj rl rm x); assumption. }
  split; [intros Bm; rewrite (A c Bm) in Ec; discriminate|]. split; [exact A|].
  intros x Bx. destruct (first_hit l m c Ec Dj) as [(y & By & E)|(y & By & E)].
  - rewrite <- E. apply (border_one_side l m Dj); assumption.
  - rewrite (A y By) in E. discriminate.
Qed.
