(** C59: what the parser makes of a file, item by item and bin by bin; the cost is not
    read. *)
From Coq Require Import List Bool Arith Lia.
From Verif Require Import Base Num GeoModel HazardModel QTModel TransfModel PolyModel HpgModel CdeModel LayoutModel ProblemModel ParserModel SimplModel LbfModel IoModel ParseModel
  GeoSpec CdeSpec PlaceSpec ShapeSpec HpgSpec SimplSpec LbfSpec IoSpec ParseSpec BaseProofs ProblemProofs ProblemOpsProofs LbfThmProofs ParseProofs ParseThmProofs RectSurrProofs ParsePierProofs ParseExampleProofs.
From Coq Require Import Reals Lra.
From Verif Require Import GeoModel HazardModel QTModel TransfModel HpgModel CdeModel CdeSpec GeoSpec PlaceSpec HpgSpec ShapeSpec SimplSpec LbfModel LbfSpec IoModel IoSpec ParseModel ParseSpec.
Import ListNotations.
Local Open Scope R_scope.
#[local] Existing Instance RTrig.

(** the same file with other costs *)
Definition recost (f : jbin R -> nat) (j : jinst R) : jinst R :=
  JIn (jn_items j) (option_map (map (fun b => JB (f b) (jb_stock b) (jb_shape b) (jb_zones b))) (jn_bins j)) (jn_strip j).
Section P.
  Variable M : R.
  Context {X : Extra R} {ED : EqD (dtransf R)} {BS : BSearch}.
  Local Notation NM := (RNumT Reqb M).
  Variable umax : nat.
  Variable pr : parser R.
  Theorem cost_ignored : forall f j ptr, parse (N := NM) umax pr (recost f j) ptr = parse (N := NM) umax pr j ptr.
  Proof.
    intros f j ptr. unfold parse, recost. cbn [jn_items jn_bins jn_strip]. destruct (rmapM _ _) as [xs|]; [|reflexivity]. cbn [rbind].
    assert (K : forall l k ptr, parse_bins (N := NM) umax pr k ptr (map (fun b => JB (f b) (jb_stock b) (jb_shape b) (jb_zones b)) l) = parse_bins (N := NM) umax pr k ptr l).
    { induction l as [|b l IH]; intros k p; [reflexivity|]. cbn [map parse_bins].
      change (parse_bin (N := NM) umax pr (JB (f b) (jb_stock b) (jb_shape b) (jb_zones b)) k p) with (parse_bin (N := NM) umax pr b k p).
      change (bin_allocs (JB (f b) (jb_stock b) (jb_shape b) (jb_zones b))) with (bin_allocs b). rewrite IH. reflexivity. }
    destruct (jn_bins j) as [bs|]; cbn [option_map]; [|reflexivity]. destruct (jn_strip j); [reflexivity|]. rewrite K. reflexivity.
  Qed.
  Hypothesis Ep : @fPI R X = PI.
  Section I.
  Hypothesis Ht : tol_ok (pr_simpl pr).
  Theorem reads_items : forall j ptr inst pres, parse (N := NM) umax pr j ptr = Ok (inst, pres) ->
    length (inst_items inst) = length (jn_items j) /\
    forall i ji, nth_error (jn_items j) i = Some ji -> exists it dx dy o,
      nth_error (inst_items inst) i = Some (it, ji_demand ji) /\ item_reads (pr_simpl pr) ji i it (pre_of (N := NM) pres i) dx dy o /\
      (if pr_center pr then p_centroid (N := RNum) (it_shape it) = Pt 0 0 else dx = 0 /\ dy = 0).
  Proof.
    intros j ptr inst pres H. destruct (parse_inv M umax pr Ht Ep _ _ _ _ H) as (fs & (_ & L & _ & K) & _). split; [exact L|].
    intros i ji Hi. destruct (K i ji Hi) as (it & f & dx & dy & A & B & C & _ & _ & D). exists it, dx, dy, (fi_outline f). auto.
  Qed.
  Theorem reads_bins : forall j ptr inst pres, parse (N := NM) umax pr j ptr = Ok (IBP inst, pres) ->
    exists bs, jn_bins j = Some bs /\ jn_strip j = None /\ length (bi_bins inst) = length bs /\
    forall i jb, nth_error bs i = Some jb -> exists b dx dy o hs zs,
      nth_error (bi_bins inst) i = Some (b, match jb_stock jb with Some n => n | None => umax end) /\
      bin_reads (pr_simpl pr) jb i b dx dy o hs zs /\
      (if pr_center pr then p_centroid (N := RNum) (a_obj (bn_outer b)) = Pt 0 0 else dx = 0 /\ dy = 0).
  Proof.
    intros j ptr inst pres H. destruct (parse_inv M umax pr Ht Ep _ _ _ _ H) as (fs & _ & bs & bins & cs & Eb & Es & Hn & (_ & L & K)).
    destruct (inst_lists M _ _ _ Hn) as (_ & E2). exists bs. rewrite E2. split; [exact Eb|]. split; [exact Es|]. split; [exact L|].
    intros i jb Hi. destruct (K i jb Hi) as (b & c & dx & dy & A & B & C & D & _). exists b, dx, dy, (fb_outer c), (fb_holes c), (fb_zones c). auto.
  Qed.
  Theorem reads_strip : forall j ptr inst pres, parse (N := NM) umax pr j ptr = Ok (ISP inst, pres) ->
    jn_bins j = None /\ jn_strip j = Some (si_height inst).
  Proof.
    intros j ptr inst pres H. destruct (parse_inv M umax pr Ht Ep _ _ _ _ H) as (fs & _ & h & Eb & Es & Hn). split; [exact Eb|]. rewrite Es.
    unfold spinst_new in Hn. apply rbind_ok in Hn as (u & _ & Hn). injection Hn as <-. reflexivity.
  Qed.
  End I.
  Hypothesis BSok : bsearch_ok BS.
  Theorem cost_refuted : forall goal nff, pr_surr pr = SC goal 1 nff 0 -> cfg_cells (pr_cfg pr) <> 0%nat ->
    exists j ptr inst pres bs jb b n, parse (N := NM) umax pr j ptr = Ok (IBP inst, pres) /\ jn_bins j = Some bs /\ nth_error bs 0 = Some jb /\
      nth_error (bi_bins inst) 0 = Some (b, n) /\ bn_value b <> jb_cost jb.
  Proof.
    intros goal nff Hq Nc. set (j := JIn [JI 1 None (JRect 1 1) None] (Some [JB 0 (Some 1%nat) (JRect 4 3) []]) None).
    destruct (box_file M BSok umax pr goal nff Hq (jn_items j) [JB 0 (Some 1%nat) (JRect 4 3) []] 0 Nc) as (inst & pres & E).
    { constructor; [|constructor]. exists 1, 1. split; [reflexivity|]. lra. }
    { constructor; [|constructor]. split; [reflexivity|]. exists 4, 3. split; [reflexivity|]. lra. }
    change (parse (N := NM) umax pr j 0 = Ok (IBP inst, pres)) in E.
    assert (L : exists b n, nth_error (bi_bins inst) 0 = Some (b, n)).
    { unfold parse, j in E. cbn [jn_items jn_bins jn_strip] in E. apply rbind_ok in E as (xs & _ & E). apply rbind_ok in E as (bins & Eb & E). apply rbind_ok in E as (i & Ei & E). injection E as <- <-.
      destruct (inst_lists M _ _ _ Ei) as (_ & E2). rewrite E2. cbn [parse_bins] in Eb. apply rbind_ok in Eb as ([b n] & _ & Eb). cbn [rbind] in Eb. injection Eb as <-. exists b, n. reflexivity. }
    destruct L as (b & n & Eb). exists (recost (fun _ => S (bn_value b)) j), 0%nat, inst, pres, [JB (S (bn_value b)) (Some 1%nat) (JRect 4 3) []], (JB (S (bn_value b)) (Some 1%nat) (JRect 4 3) []), b, n.
    split; [rewrite cost_ignored; exact E|]. split; [reflexivity|]. split; [reflexivity|]. split; [exact Eb|]. cbn [jb_cost]. lia.
  Qed.
End P.
