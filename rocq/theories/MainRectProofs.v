(** The program on files of rectangles: everything together.  Items without a colour. *)
From Coq Require Import List Bool Arith Lia.
From Verif Require Import Base Num GeoModel HazardModel QTModel TransfModel HpgModel CdeModel CdeSpec
  PolyModel ParserModel SimplModel SlotMapModel LayoutModel ProblemModel ProblemSpec LbfModel IoModel ParseModel SvgModel MainModel
  BaseProofs Instances ParityProofs SimpleProofs SimpleExampleProofs ParseProofs ParseThmProofs ParseSpProofs LbfExampleProofs LbfExample2Proofs ParseExample2Proofs SvgRefuteProofs MainProofs.
From Coq Require Import Reals Lra.
From Verif Require Import GeoModel HazardModel QTModel TransfModel HpgModel CdeModel CdeSpec GeoSpec PlaceSpec HpgSpec ShapeSpec SimplSpec SimpleSpec ProblemModel LbfModel LbfSpec IoModel IoSpec ParseModel ParseSpec SvgModel SvgSpec MainModel MainSpec.
Import ListNotations.
Local Open Scope R_scope.
#[local] Existing Instance RTrig.

Lemma box_simple : forall w h, 0 < w -> 0 < h -> simple [Pt 0 0; Pt w 0; Pt w h; Pt 0 h].
Proof.
  intros w h Hw Hh. split; [cbn; lia|]. split.
  - repeat constructor; cbn [In]; intros K; repeat (destruct K as [K|K]; [injection K; intros; lra|]); exact K.
  - assert (L : forall a b p, on_seg (Ed a b) p -> (px a = px b -> px p = px a) /\ (py a = py b -> py p = py a)).
    { intros a b p (t & Ht & ->). cbn [at_t es ee px py]. split; intros ->; ring. }
    intros e f [x y] He Hf O1 O2. unfold ring in He, Hf. cbn in He, Hf.
    repeat (destruct He as [<-|He]; [|]); try destruct He; repeat (destruct Hf as [<-|Hf]; [|]); try destruct Hf;
      try (left; reflexivity); apply L in O1; apply L in O2; cbn [es ee px py] in *; destruct O1 as (A1 & A2), O2 as (B1 & B2).
    all: try (exfalso; repeat match goal with K : ?a = ?a -> _ |- _ => specialize (K eq_refl) end; lra).
    all: repeat match goal with K : ?a = ?a -> _ |- _ => specialize (K eq_refl) end; subst.
    all: solve [right; left; split; reflexivity | right; right; split; reflexivity].
Qed.
Lemma rect_simple_items : forall m l, Forall (rect_item m) l -> simple_items (map file_item l).
Proof.
  intros m l H f Hf. apply in_map_iff in Hf as (j & <- & Hj). rewrite Forall_forall in H. destruct (H j Hj) as ((w & h & Es & Hw & Hh) & _).
  unfold file_item. rewrite Es. cbn [fi_outline outline]. apply box_simple; lra.
Qed.
Lemma rect_simple_bins : forall l, Forall rect_bin l -> simple_bins (map file_bin l).
Proof.
  intros l H f Hf. apply in_map_iff in Hf as (j & <- & Hj). rewrite Forall_forall in H. destruct (H j Hj) as (Ez & w & h & Es & Hw & Hh & _).
  unfold file_bin. rewrite Es, Ez. cbn [fb_outer fb_holes fb_zones outline cutouts map]. split; [apply box_simple; lra|]. split; intros ? [].
Qed.

Section R.
  Variable M : R.
  Context {X : Extra R} {ED : EqD (dtransf R)} {BS : BSearch} {G : Type} {RG : Rng R G}.
  Hypothesis BSok : bsearch_ok BS.
  #[local] Instance NR : Num R := RNumT Reqb M.
  Hypothesis Ep : @fPI R X = PI.
  Hypothesis Pow : sane_extra X.
  Variable umax : nat.
  Variable piers : pier_cfg R.
  Variable tl : R.
  Variable fuel : nat.
  Variable c : main_cfg R.
  Hypothesis Htol : match mc_tol c with Some t => 0 <= t < 1 | None => True end.
  Local Notation program := (program umax piers tl fuel c).

  (** the whole program on rectangles *)
  Theorem rect_correct : forall goal nff items bs, runs c -> mc_surr c = SC goal 1 nff 0 -> Forall (rect_item M) items -> Forall rect_bin bs ->
    let j := JIn items (Some bs) None in
    forall g p1 p2 p3, exists js ds, program j g p1 p2 p3 = (FSol j js c :: drawings ds, Done) /\
      Forall (fun l => exists k jb, jl_container l = JBin k /\ nth_error bs k = Some jb /\ packs (map file_item items) (file_bin jb) (jl_items l) /\ jl_items l <> []) (js_layouts js) /\
      (forall i ji, nth_error items i = Some ji -> (item_copies i (js_layouts js) <= ji_demand ji)%nat) /\
      (forall b jb n, nth_error bs b = Some jb -> jb_stock jb = Some n -> (bins_used b (js_layouts js) <= n)%nat) /\
      exists fs cs, Forall2 (item_of_file None) items fs /\ Forall2 (bin_of_file None) bs cs /\
        Forall2 (fun d l => exists k b, jl_container l = JBin k /\ nth_error cs k = Some b /\ pictures fs b (jl_items l) d) ds (js_layouts js).
  Proof.
    intros goal nff items bs Rn Hq Hi Hb j g p1 p2 p3.
    destruct (rect_done M BSok Ep umax piers tl fuel c Htol Pow goal nff items bs Rn Hq Hi Hb g p1 p2 p3) as (files & E).
    destruct (writes_bins M BSok Ep umax piers tl fuel c Htol j bs eq_refl (rect_simple_items _ _ Hi) (rect_simple_bins _ Hb) _ _ _ _ _ _ E) as [(_ & E')|K]; [discriminate|].
    destruct K as (js & ds & -> & _ & (De & _) & _ & Pk & Dm & St & fs & cs & Fi & Fb & Pc). exists js, ds. split; [exact E|]. split; [exact Pk|]. split; [exact Dm|]. split; [exact St|].
    exists fs, cs. split; [exact (rect_file_item _ _ _ _ Hi Fi)|]. split; [exact (rect_file_bin _ _ _ Hb Fb)|]. rewrite (De eq_refl), firstn_all in Pc. exact Pc.
  Qed.

  (** an item without a colour: the solution is written, and no drawing *)
  Theorem no_drawings : forall j bs ji q, jn_bins j = Some bs -> In ji (jn_items j) -> ji_quality ji = Some q -> (length (th_zones (do_theme (mc_draw c))) <= q)%nat ->
    forall g p1 p2 p3 files e, program j g p1 p2 p3 = (files, e) ->
    (files = [] /\ e = Aborted) \/ exists js, files = [FSol j js c] /\ (e = Done <-> js_layouts js = []) /\ e <> Unfinished.
  Proof.
    intros j bs ji q Eb Hj Eq Lq g p1 p2 p3 files e H. unfold MainModel.program in H.
    pose proof (tol_main piers c Htol) as Ht.
    destruct (parse umax (main_parser piers c) j p1) as [[[inst|inst] pres]|] eqn:Epa; [| |injection H as <- <-; left; auto].
    2: { exfalso. destruct (parse_inv M umax (main_parser piers c) Ht Ep _ _ _ _ Epa) as (fs & _ & hgt & En & _). congruence. }
    destruct (lbf_bp inst (mc_lbf c) g p2) as [[[p s] p']|] eqn:Er; [|injection H as <- <-; left; auto]. unfold write_all in H.
    destruct (bp_export (pre_of pres) inst s) as [js|] eqn:Ej; [|injection H as <- <-; left; auto]. right.
    destruct (parse_inv M umax (main_parser piers c) Ht Ep _ _ _ _ Epa) as (fs & I & _). cbn [inst_items] in I. destruct I as (_ & _ & _ & K).
    apply In_nth_error in Hj as (i & Hj). destruct (K i ji Hj) as (it & f & dx & dy & Hit & _ & Rd & _).
    assert (Ll : length (js_layouts js) = length (so_layouts s)).
    { unfold bp_export, compose_json in Ej. apply rbind_ok in Ej as (ls & El & Ej). injection Ej as <-. exact (rmapM_len _ _ _ El). }
    destruct (write_svgs piers c (pre_of pres) (bi_items inst) 0 (so_layouts s) p3) as [fl e0] eqn:Ew. injection H as <- <-. exists js.
    destruct (so_layouts s) as [|sn sns] eqn:El.
    - cbn in Ew. injection Ew as <- <-. destruct (js_layouts js); [|discriminate]. split; [reflexivity|]. split; [tauto|discriminate].
    - cbn [write_svgs] in Ew. destruct (snapshot_to_svg (main_parser piers c) (pre_of pres) (bi_items inst) (mc_draw c) sn p3) as [d|] eqn:Ed.
      + exfalso. apply (quality_undrawn (main_parser piers c) (pre_of pres) (bi_items inst) (mc_draw c) (Sol 0 [sn] (so_usage s) [] [] []) p3 [d] it q (ji_demand ji)).
        * eapply nth_error_In. exact Hit.
        * rewrite (ir_quality _ _ _ _ _ _ _ _ Rd). exact Eq.
        * exact Lq.
        * discriminate.
        * unfold draw_solution. cbn [so_layouts rmapM]. rewrite Ed. reflexivity.
      + injection Ew as <- <-. split; [reflexivity|]. split; [|discriminate]. split; [discriminate|]. intros Z. rewrite Z in Ll. discriminate.
  Qed.
End R.
