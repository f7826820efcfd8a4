(** Vocabulary for the statements about the program. *)
From Coq Require Import List.
From Verif Require Import Base Num GeoModel HazardModel QTModel TransfModel PolyModel HpgModel CdeModel LayoutModel ProblemModel ParserModel LbfModel IoModel ParseModel SvgModel MainModel.
From Coq Require Import Reals.
From Verif Require Import GeoSpec CdeModel LbfModel ParseModel ParseSpec SvgModel MainModel.
Import ListNotations.
Local Open Scope R_scope.

(** drawings, written one by one with their positions *)
Definition drawings (ds : list (svg R)) : list (file R) := map (fun x => FSvg (fst x) (snd x)) (combine (seq 0 (length ds)) ds).
(** files of rectangles the program is asked to pack: items less than [m] wide, of a quality
    that has a colour; bins at most 400 times as long as wide, without zones *)
Definition rect_item (m : R) (j : jitem R) : Prop :=
  (exists w h, ji_shape j = JRect w h /\ 0 < w < m /\ 0 < h) /\ match ji_quality j with Some q => (q < 10)%nat | None => True end.
Definition rect_bin (j : jbin R) : Prop :=
  jb_zones j = [] /\ exists w h, jb_shape j = JRect w h /\ 0 < w /\ 0 < h /\ w <= 400 * h /\ h <= 400 * w.
(** a configuration with samples, at most all of them for the local search, a proximity
    grid, and a colour for each of the ten qualities *)
Definition runs (c : main_cfg R) : Prop :=
  (0 < lc_samples (mc_lbf c))%nat /\ (lc_local (mc_lbf c) <= lc_samples (mc_lbf c))%nat /\ cfg_cells (mc_cde c) <> 0%nat /\ length (th_zones (do_theme (mc_draw c))) = 10%nat.
