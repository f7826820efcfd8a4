(** Runs of the reference optimizer that never end. *)
From Coq Require Import List Bool Arith ZArith Lia Permutation.
From Verif Require Import Base Num GeoModel HazardModel QTModel TransfModel HpgModel CdeModel CdeSpec
  PolyModel SlotMapModel LayoutModel ProblemModel ProblemSpec LbfModel BaseProofs HazVecProofs ProblemProofs
  ProblemOpsProofs MirrorProofs Instances ParityProofs RigidProofs PlaceExampleProofs LbfSpec LbfRunProofs LbfSpProofs.
From Coq Require Import Reals Lra.
From Verif Require Import GeoModel HazardModel QTModel TransfModel HpgModel CdeModel CdeSpec GeoSpec PlaceSpec ShapeSpec LbfModel LbfSpec.
Import ListNotations.
Local Open Scope R_scope.

Section S.
  Variable M : R.
  #[local] Instance NLX : Num R := RNumT Reqb M.
  #[local] Existing Instance RTrig.
  Context {ED : EqD (dtransf R)} {BS : BSearch} {G : Type} {RG : Rng R G} {X : Extra R}.
  Hypothesis BSok : bsearch_ok BS.
  Lemma tall_never_ends : forall items hgt (inst : spinst R) i it q, spinst_new items hgt = Ok inst -> fine_items items -> 0 < hgt ->
    nth_error items i = Some (it, q) -> (0 < q)%nat ->
    (forall a t, allowed (it_rot it) a -> turns a t -> exists v w, In v (moved t (it_shape it)) /\ In w (moved t (it_shape it)) /\ hgt <= py w - py v) ->
    forall fuel tol c cfg (g : G) ptr r, lbf_sp fuel tol inst c cfg g ptr <> Ok (Some r).
  Proof.
    intros items hgt inst i it q Hn Gi Hp Ni Hq Tall fuel tol c cfg g ptr [[p s] p2] H.
    destruct (lbf_sp_packs M BSok items hgt inst fuel tol c cfg g ptr p s p2 Hn Gi H) as (sn & Es & (_ & _ & A3 & A4) & Cn & Y1 & Y2 & St & Go).
    specialize (Cn _ _ _ Ni). unfold sol_items in Cn. rewrite Es in Cn. cbn [flat_map] in Cn. rewrite app_nil_r in Cn.
    assert (Hin : In i (map fst (snap_placed sn))).
    { unfold count in Cn. destruct (filter (Nat.eqb i) (map fst (snap_placed sn))) as [|j l] eqn:Ef; [cbn in Cn; lia|].
      assert (Hj : In j (filter (Nat.eqb i) (map fst (snap_placed sn)))) by (rewrite Ef; left; reflexivity).
      apply filter_In in Hj as (Hj & E). apply Nat.eqb_eq in E. subst j. exact Hj. }
    apply in_map_iff in Hin as ([j d] & Ej & Hin). cbn in Ej. subst j.
    destruct (A4 _ Hin) as (it' & q' & a & Ni' & Al & Tn). cbn [fst snd] in *. rewrite Ni in Ni'. injection Ni' as <- <-.
    destruct (Tall _ _ Al Tn) as (v & w & Hv & Hw & L).
    assert (K : forall z, In z (moved (compose d) (it_shape it)) -> 0 < py z < hgt).
    { intros z Hz. assert (Cz : covers items (i, d) z) by (exists it, q; split; [exact Ni|left; apply vertex_border; exact Hz]).
      assert (Nb : ~ blocked (fact_of (hazard_new (D := dtransf R) BinExterior (bn_outer (ls_bin sn)))) z).
      { eapply A3; [exact Hin|exact Ni|rewrite St; left; reflexivity| |exact Cz]. intros (k & y & E & _). discriminate. }
      assert (Nc : in_open_rect (p_bbox (a_obj (bn_outer (ls_bin sn)))) z).
      { apply even_odd_outer in Nb as (_ & O); [exact O|exact Go]. }
      destruct Nc as (_ & Nc). rewrite Y1, Y2, Rmin_left, Rmax_right in Nc by lra. exact Nc. }
    pose proof (K v Hv). pose proof (K w Hw). lra.
  Qed.
End S.

(** decidable equality of placements *)
Definition dt_eqb (a b : dtransf R) : bool := Reqb (dt_rot a) (dt_rot b) && Reqb (dt_tx a) (dt_tx b) && Reqb (dt_ty a) (dt_ty b).
Lemma dt_eqb_ok : forall a b, dt_eqb a b = true <-> a = b.
Proof.
  intros [r x y] [r' x' y']. unfold dt_eqb, Reqb. cbn [dt_rot dt_tx dt_ty].
  destruct (Req_EM_T r r'), (Req_EM_T x x'), (Req_EM_T y y'); cbn; split; intros E; congruence.
Qed.
Definition DtEq : EqD (dtransf R) := {| deq := dt_eqb; deq_ok := dt_eqb_ok |}.

(** a square of side 4 that may not be turned, for a strip of height 3 *)
Definition tall_item : item R :=
  It 0 (let r := rbox 0 0 4 4 2 in Poly (p_pts r) (p_bbox r) 16 (4 * sqrt 2) (p_poi r) (p_surr r)) RotNone None.
Lemma tall_items : fine_items [(tall_item, 1%nat)].
Proof. 
  constructor; [|constructor]. destruct (rbox_good 0 0 4 4 2 ltac:(lra) ltac:(lra)) as [A B C D E]. split; assumption.
Qed.
Lemma tall_turns : forall a t, allowed (it_rot tall_item) a -> turns a t ->
  exists v w, In v (moved t (it_shape tall_item)) /\ In w (moved t (it_shape tall_item)) /\ 3 <= py w - py v.
Proof.
  intros a t Al (E0 & E1 & E2 & E3). cbn in Al. subst a. rewrite cos_0 in E0, E3. rewrite sin_0 in E1, E2.
  exists (tr_point (N := RNum) t (Pt 0 0)), (tr_point (N := RNum) t (Pt 4 4)). unfold moved. cbn.
  split; [auto|]. split; [auto|]. rewrite E2, E3. lra.
Qed.
Lemma strip_search_never_ends : forall (ED : EqD (dtransf R)) (BS : BSearch), bsearch_ok BS -> forall M,
  exists (items : list (item R * nat)) hgt inst, @spinst_new R (RNumT Reqb M) items hgt = Ok inst /\ fine_items items /\ 0 < hgt /\
    forall (G : Type) (RG : Rng R G) (X : Extra R) fuel tol c cfg (g : G) ptr r,
    lbf_sp (N := RNumT Reqb M) (T := RTrig) fuel tol inst c cfg g ptr <> Ok (Some r).
Proof.
  intros ED BS Hb M. eexists [(tall_item, 1%nat)], 3, _. split; [reflexivity|]. split; [exact tall_items|]. split; [lra|].
  intros G RG X fuel tol c cfg g ptr r.
  eapply (tall_never_ends M Hb [(tall_item, 1%nat)] 3 _ 0%nat tall_item 1%nat); [reflexivity|exact tall_items|lra|reflexivity|lia|exact tall_turns].
Qed.
