(** A file of rectangles, read, solved and written. *)
From Coq Require Import List Bool Arith Lia.
From Verif Require Import Base Num GeoModel HazardModel QTModel TransfModel PolyModel HpgModel CdeModel LayoutModel ProblemModel ParserModel SimplModel LbfModel IoModel ParseModel
  GeoSpec CdeSpec PlaceSpec ShapeSpec HpgSpec SimplSpec LbfSpec IoSpec ParseSpec BaseProofs Instances RectPolyProofs CombProofs LbfExampleProofs LbfExample2Proofs ParseExampleProofs ParseSolveProofs.
From Coq Require Import Reals Lra.
From Verif Require Import GeoModel HazardModel QTModel TransfModel HpgModel CdeModel CdeSpec GeoSpec PlaceSpec HpgSpec ShapeSpec SimplSpec LbfModel LbfSpec IoModel IoSpec ParseModel ParseSpec.
Import ListNotations.
Local Open Scope R_scope.
#[local] Existing Instance RTrig.
Definition box_parser (b : bool) : parser R := Parser None (Cfg 3 100) release_cfg (SC (9 / 10) 1 1 0) b.
Definition some_items : list (jitem R) := [JI 3 (Some [0; 90]) (JRect 2 1) None; JI 2 None (JRect 1 1) (Some 4%nat)].
Definition some_bins : list (jbin R) := [JB 7 (Some 2%nat) (JRect 4 3) []; JB 5 None (JRect 3 3) []].
Lemma some_boxes : Forall box_item some_items /\ Forall box_bin some_bins.
Proof.
  split; repeat constructor; cbn [ji_shape jb_shape].
  - exists 2, 1. split; [reflexivity|]. lra.
  - exists 1, 1. split; [reflexivity|]. lra.
  - exists 4, 3. split; [reflexivity|]. lra.
  - exists 3, 3. split; [reflexivity|]. lra.
Qed.
Lemma some_tame : forall M, 2 < M -> Forall (tame M) (map file_item some_items).
Proof.
  intros M HM. constructor; [split; [|split]|constructor; [split; [|split]|constructor]]; cbn [fi_outline fi_quality file_item ji_shape outline].
  - apply (rect_spikes 0 0 2 1); lra.
  - intros p q Hp Hq. cbn [In] in Hp, Hq. repeat (destruct Hp as [<-|Hp]; [repeat (destruct Hq as [<-|Hq]; [cbn; lra|]); destruct Hq|]). destruct Hp.
  - discriminate.
  - apply (rect_spikes 0 0 1 1); lra.
  - intros p q Hp Hq. cbn [In] in Hp, Hq. repeat (destruct Hp as [<-|Hp]; [repeat (destruct Hq as [<-|Hq]; [cbn; lra|]); destruct Hq|]). destruct Hp.
  - intros q H. injection H as <-. lia.
Qed.
Lemma some_clean : clean_bins (map file_bin some_bins).
Proof.
  intros f [<-|[<-|[]]]; cbn [fb_outer fb_holes fb_zones file_bin jb_shape jb_zones outline cutouts map]; (split; [|split; intros ? []]).
  - apply (rect_spikes 0 0 4 3); lra.
  - apply (rect_spikes 0 0 3 3); lra.
Qed.
Lemma some_run : forall M, 2 < M -> let N := RNumT Reqb M in let ED := DtEq in let BS := LinSearch in let X := REx in forall (G : Type) (RG : Rng R G) umax b,
  exists inst pres, parse umax (box_parser b) (JIn some_items (Some some_bins) None) 0 = Ok (IBP inst, pres) /\
  forall cfg (g : G) ptr, (0 < lc_samples cfg)%nat -> (lc_local cfg <= lc_samples cfg)%nat ->
  exists p s p' js, lbf_bp inst cfg g ptr = Ok (p, s, p') /\ bp_export (pre_of pres) inst s = Ok js.
Proof.
  intros M HM N ED BS X G RG umax b. destruct some_boxes as (B1 & B2).
  destruct (box_file M (X := X) LinSearch_ok umax (box_parser b) (9 / 10) 1 eq_refl some_items some_bins 0) as (inst & pres & E); [discriminate|exact B1|exact B2|].
  exists inst, pres. split; [exact E|].
  destruct (drawn_solves M (X := X) (RG := RG) LinSearch_ok umax (box_parser b) eq_refl eq_refl REx_sane _ _ _ _ E) as (bs & Eb & K). injection Eb as <-.
  apply K; [exact (some_tame M HM)|exact some_clean|discriminate].
Qed.
Lemma some_strip : forall M, let N := RNumT Reqb M in let ED := DtEq in let BS := LinSearch in let X := REx in forall umax b,
  exists inst pres, parse umax (box_parser b) (JIn some_items None (Some 4)) 0 = Ok (ISP inst, pres) /\ clean_items (map file_item some_items).
Proof.
  intros M N ED BS X umax b. destruct (box_strip M (X := X) umax (box_parser b) (9 / 10) 1 eq_refl some_items 4 0) as (inst & pres & E); [apply some_boxes|].
  exists inst, pres. split; [exact E|]. intros f Hf. exact (proj1 (proj1 (Forall_forall _ _) (some_tame 3 ltac:(lra)) f Hf)).
Qed.
