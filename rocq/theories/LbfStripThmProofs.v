(** When runs of the reference optimizer on strip packing instances panic. *)
From Coq Require Import List Bool Arith ZArith Lia Permutation.
From Verif Require Import Base Num GeoModel HazardModel QTModel TransfModel HpgModel CdeModel CdeSpec
  PolyModel SlotMapModel LayoutModel ProblemModel ProblemSpec LbfModel BaseProofs HazVecProofs ProblemProofs ProblemOpsProofs StripProofs
  GeoPrimProofs ParityProofs RigidProofs RegionProofs PlaceExampleProofs RectPolyProofs HpgSpec LbfSpec LbfProofs LbfSpProofs LbfExampleProofs LbfBpTotalProofs LbfSpTotalProofs StripBinProofs.
From Coq Require Import Reals Lra Classical.
From Verif Require Import GeoModel HazardModel QTModel TransfModel HpgModel CdeModel CdeSpec GeoSpec PlaceSpec HpgSpec ShapeSpec LbfModel LbfSpec.
Import ListNotations.
Local Open Scope R_scope.

Section T.
  Variable M : R.
  #[local] Instance NST : Num R := RNumT Reqb M.
  #[local] Existing Instance RTrig.
  Context {ED : EqD (dtransf R)} {BS : BSearch}.
  Hypothesis BSok : bsearch_ok BS.
  Context {G : Type} {RG : Rng R G} {X : Extra R}.

  Lemma sinst_fields : forall items hgt (inst : spinst R), spinst_new items hgt = Ok inst -> si_items inst = items /\ si_height inst = hgt /\ si_area inst = items_area items.
  Proof. intros items hgt inst H. unfold spinst_new in H. apply rbind_ok in H as (u & _ & H). injection H as <-. auto. Qed.
  Lemma sp_no_panic : forall items hgt (inst : spinst R) fuel tol c cfg (g : G) ptr, sane_extra X -> spinst_new items hgt = Ok inst ->
    Forall (fun x => sound_item M (fst x)) items -> hulls_constructible items -> 0 < hgt -> 0 < tol -> cfg_cells c <> 0%nat ->
    strips_constructible c hgt -> 0 < si_area inst -> (0 < lc_samples cfg)%nat -> (lc_local cfg <= lc_samples cfg)%nat ->
    exists o, lbf_sp fuel tol inst c cfg g ptr = Ok o.
  Proof.
    intros items hgt inst fuel tol c cfg g ptr Pow Hn Snd Hu Hh Ht Nc Con Ha Ls Lc. destruct (sinst_fields _ _ _ Hn) as (Ei & Eh & Ea).
    pose proof (sinst_ids _ _ _ Hn) as Ids. rewrite <- Ei in Snd, Hu, Ea. rewrite <- Eh in Hh, Con.
    exact (lbf_sp_total M BSok Pow inst Ids Snd c Nc Con Hh fuel tol cfg g ptr Ht Lc Ls Hu Ha Ea).
  Qed.
  Lemma sp_one_cell : forall items hgt (inst : spinst R) fuel tol c cfg (g : G) ptr, sane_extra X -> spinst_new items hgt = Ok inst ->
    Forall (fun x => sound_item M (fst x)) items -> hulls_constructible items -> 0 < hgt -> 0 < tol -> cfg_cells c = 1%nat ->
    0 < si_area inst -> (0 < lc_samples cfg)%nat -> (lc_local cfg <= lc_samples cfg)%nat ->
    exists o, lbf_sp fuel tol inst c cfg g ptr = Ok o.
  Proof.
    intros items hgt inst fuel tol c cfg g ptr Pow Hn Snd Hu Hh Ht Nc. apply (sp_no_panic items hgt); try assumption; [rewrite Nc; discriminate|].
    exact (one_cell_strips M BSok c hgt Hh Nc).
  Qed.
  Lemma sp_only_thin : forall items hgt (inst : spinst R) fuel tol c cfg (g : G) ptr, sane_extra X -> spinst_new items hgt = Ok inst ->
    Forall (fun x => sound_item M (fst x)) items -> hulls_constructible items -> 0 < hgt -> 0 < tol -> cfg_cells c <> 0%nat ->
    0 < si_area inst -> (0 < lc_samples cfg)%nat -> (lc_local cfg <= lc_samples cfg)%nat ->
    lbf_sp fuel tol inst c cfg g ptr = Panic ->
    exists a w ptr', 0 < w /\ (400 * hgt < w \/ 400 * w < hgt) /\ bin_from_strip (D := dtransf R) (Rc a 0 (a + w) hgt) c ptr' = Panic.
  Proof.
    intros items hgt inst fuel tol c cfg g ptr Pow Hn Snd Hu Hh Ht Nc Ha Ls Lc Hp.
    destruct (classic (strips_constructible c hgt)) as [Con|Con].
    - exfalso. destruct (sp_no_panic items hgt inst fuel tol c cfg g ptr Pow Hn Snd Hu Hh Ht Nc Con Ha Ls Lc) as (o & Eo). rewrite Hp in Eo. discriminate.
    - unfold strips_constructible in Con. apply not_all_ex_not in Con as (a & Con). apply not_all_ex_not in Con as (w & Con). apply not_all_ex_not in Con as (ptr' & Con).
      apply imply_to_and in Con as (Hw & Con). exists a, w, ptr'. split; [exact Hw|]. split.
      + destruct (Rlt_le_dec (400 * hgt) w) as [L|L]; [left; exact L|]. destruct (Rlt_le_dec (400 * w) hgt) as [L'|L']; [right; exact L'|].
        exfalso. apply Con. apply (stout_strip M BSok); [split; cbn; lra|exact Nc|cbn; lra|cbn; lra].
      + destruct (bin_from_strip (Rc a 0 (a + w) hgt) c ptr') as [b|] eqn:Eb; [exfalso; apply Con; exists b; reflexivity|reflexivity].
  Qed.
  Lemma sp_first : forall (inst : spinst R) fuel tol c cfg (g : G) ptr, bin_from_strip (D := dtransf R) (Rc 0 0 (si_area inst * 2 / si_height inst) (si_height inst)) c ptr = Panic ->
    lbf_sp fuel tol inst c cfg g ptr = Panic.
  Proof.
    intros inst fuel tol c cfg g ptr H. unfold lbf_sp. destruct (Nat.ltb 0 (lc_samples cfg)); [|reflexivity]. cbn [rassert rbind]. unfold sp_new.
    match goal with |- context [bin_from_strip ?r c ptr] => assert (Er : r = Rc 0 0 (si_area inst * 2 / si_height inst) (si_height inst)) by reflexivity; rewrite Er end.
    rewrite H. reflexivity.
  Qed.
  Lemma sp_wide_panics : forall (inst : spinst R) fuel tol c cfg (g : G) ptr, 0 < si_height inst -> 500 * (si_height inst * si_height inst) <= si_area inst ->
    10000 <= INR (cfg_cells c) -> lbf_sp fuel tol inst c cfg g ptr = Panic.
  Proof.
    intros inst fuel tol c cfg g ptr Hh Ha Hc. apply sp_first. set (h := si_height inst) in *. set (a := si_area inst) in *.
    assert (W : 1000 * h <= a * 2 / h). { apply Rmult_le_reg_r with h; [exact Hh|]. replace (a * 2 / h * h) with (a * 2) by (field; lra). nra. }
    apply (wide_strip M BSok); [split; cbn; nra|exact Hc|cbn; lra].
  Qed.
  Lemma sp_empty_panics : forall (inst : spinst R) fuel tol c cfg (g : G) ptr, si_area inst = 0 -> lbf_sp fuel tol inst c cfg g ptr = Panic.
  Proof.
    intros inst fuel tol c cfg g ptr Ha. apply sp_first. destruct (bin_from_strip _ c ptr) as [b|] eqn:E; [|reflexivity]. exfalso.
    destruct (strip_poly M _ _ _ _ E) as (Es & _). apply rect_pts in Es as (Nx & _). apply Nx. cbn. rewrite Ha. unfold Rdiv. ring.
  Qed.
End T.

(** a square that may not be turned, with the disk that touches its sides *)
Definition sq_item (s : R) : item R :=
  It 0 (let r := rbox 0 0 s s (s / 2) in Poly (p_pts r) (p_bbox r) (s * s) (s * sqrt 2) (p_poi r) (p_surr r)) RotNone None.
Lemma rbox_closed : forall a b c d k p, a < c -> b < d -> a <= px p <= c -> b <= py p <= d -> region (p_pts (rbox a b c d k)) p.
Proof.
  intros a b c d k [x y] Hx Hy (X1 & X2) (Y1 & Y2). cbn [px py] in *.
  assert (S : forall e, In e (ring (p_pts (rbox a b c d k))) -> on_seg e (Pt x y) -> region (p_pts (rbox a b c d k)) (Pt x y)) by (intros e He Hs; left; exists e; split; assumption).
  assert (K : forall u l h, l < h -> l <= u <= h -> 0 <= (u - l) / (h - l) <= 1 /\ 0 <= (h - u) / (h - l) <= 1).
  { intros u l h L (U1 & U2). assert (Q : 0 < / (h - l)) by (apply Rinv_0_lt_compat; lra). assert (P : (h - l) * / (h - l) = 1) by (apply Rinv_r; lra). unfold Rdiv. split; split; nra. }
  destruct (Req_dec y b) as [->|Nb].
  { apply (S (Ed (Pt a b) (Pt c b))); [simpl; auto|]. exists ((x - a) / (c - a)). split; [apply K; lra|]. unfold at_t. apply pt_ext; cbn; field; lra. }
  destruct (Req_dec y d) as [->|Nd].
  { apply (S (Ed (Pt c d) (Pt a d))); [simpl; auto|]. exists ((c - x) / (c - a)). split; [apply K; lra|]. unfold at_t. apply pt_ext; cbn; field; lra. }
  destruct (Req_dec x a) as [->|Na].
  { apply (S (Ed (Pt a d) (Pt a b))); [simpl; auto|]. exists ((d - y) / (d - b)). split; [apply K; lra|]. unfold at_t. apply pt_ext; cbn; field; lra. }
  destruct (Req_dec x c) as [->|Nc].
  { apply (S (Ed (Pt c b) (Pt c d))); [simpl; auto|]. exists ((y - b) / (d - b)). split; [apply K; lra|]. unfold at_t. apply pt_ext; cbn; field; lra. }
  right. apply (rbox_inside a b c d k (Pt x y)); cbn; lra.
Qed.
Lemma sq_disk : forall s p, 0 < s -> in_disk (p_poi (it_shape (sq_item s))) p -> region (p_pts (it_shape (sq_item s))) p.
Proof.
  intros s p Hs H. unfold in_disk in H. cbn in H. pose proof (edist_sq p (Pt ((0 + s) / 2) ((0 + s) / 2))) as E. pose proof (edist_nonneg p (Pt ((0 + s) / 2) ((0 + s) / 2))) as P.
  set (e := edist p _) in *. cbn [px py] in E. set (u := px p - (0 + s) / 2) in *. set (v := py p - (0 + s) / 2) in *.
  assert (Q : e * e <= (s / 2) * (s / 2)) by nra. pose proof (pow2_ge_0 u). pose proof (pow2_ge_0 v).
  assert (U : - (s / 2) <= u <= s / 2) by (split; nra). assert (V : - (s / 2) <= v <= s / 2) by (split; nra).
  apply (rbox_closed 0 0 s s (s / 2) p); unfold u, v in *; lra.
Qed.
Lemma sq_sound : forall M s, 0 < s -> s / 2 < M -> sound_item M (sq_item s).
Proof.
  intros M s Hs Hm. pose proof (rbox_good 0 0 s s (s / 2) Hs Hs) as [A B C D E]. split.
  - split; assumption.
  - split; [cbn; lra|]. intros p. exact (sq_disk s p Hs).
  - cbn. lra.
  - intros u Hu. injection Hu as <-. cbn. lia.
  - eexists. split; [reflexivity|]. cbn. split; [discriminate|]. split; [intros k [<-|[]]; cbn; lra|]. split; [lra|]. intros k p [<-|[]] H. exact H.
  - intros k p [<-|[]] H. exact (sq_disk s p Hs H).
  - discriminate.
  - discriminate.
Qed.
(** two thousand squares of side 1/2 for a strip of height 1 *)
Lemma sp_panics_example : forall (ED : EqD (dtransf R)) (BS : BSearch), bsearch_ok BS -> forall M, 1 < M ->
  exists (items : list (item R * nat)) hgt inst c, @spinst_new R (RNumT Reqb M) items hgt = Ok inst /\ Forall (fun x => sound_item M (fst x)) items /\
    hulls_constructible (N := RNumT Reqb M) items /\ 0 < hgt /\ 0 < si_area inst /\ cfg_cells c <> 0%nat /\
    forall (G : Type) (RG : Rng R G) (X : Extra R) fuel tol cfg (g : G) ptr,
    lbf_sp (N := RNumT Reqb M) (T := RTrig) fuel tol inst c cfg g ptr = Panic.
Proof.
  intros ED BS Hb M HM. set (n := Z.to_nat 2000). set (k := Z.to_nat 10000).
  assert (En : INR n = 2000) by (unfold n; rewrite INR_IZR_INZ, Z2Nat.id by lia; reflexivity).
  assert (Ek : INR k = 10000) by (unfold k; rewrite INR_IZR_INZ, Z2Nat.id by lia; reflexivity). clearbody n k.
  set (a := @items_area R (RNumT Reqb M) [(sq_item (1 / 2), n)]).
  assert (Ea : a = 500) by (unfold a, items_area, fsum; cbn; rewrite En; lra).
  exists [(sq_item (1 / 2), n)], 1, (SPI [(sq_item (1 / 2), n)] a 1), (Cfg 0 k). split; [reflexivity|]. clearbody a. subst a. cbn [si_area].
  split; [constructor; [apply sq_sound; lra|constructor]|]. split; [left; cbn; lia|]. split; [lra|]. split; [lra|].
  split; [cbn; intros Z; rewrite Z in Ek; cbn in Ek; lra|].
  intros G RG X fuel tol cfg g ptr. apply (sp_wide_panics M Hb); cbn [si_height si_area cfg_cells]; [lra|lra|rewrite Ek; lra].
Qed.
