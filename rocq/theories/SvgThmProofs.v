(** From the instance file to the drawing. *)
From Coq Require Import List Bool Arith Lia Sorting.Sorted.
From Verif Require Import Base Num GeoModel HazardModel QTModel TransfModel HpgModel CdeModel CdeSpec
  PolyModel ParserModel SimplModel SlotMapModel LayoutModel ProblemModel ProblemSpec LbfModel IoModel ParseModel SvgModel
  BaseProofs Instances ParityProofs PipProofs NormProofs XformProofs ConstructProofs RigidProofs RegionProofs RectPolyProofs LayoutProofs ProblemProofs ProblemOpsProofs
  MirrorProofs LbfBpProofs LbfThmProofs LbfHistProofs FitProofs LbfStripThmProofs LbfSpProofs IoProofs IoThmProofs HistBinProofs ParseProofs ParseThmProofs ParseSpProofs SvgProofs.
From Coq Require Import Reals Lra.
From Verif Require Import GeoModel HazardModel QTModel TransfModel HpgModel CdeModel CdeSpec GeoSpec PlaceSpec HpgSpec ShapeSpec SimplSpec LbfModel LbfSpec IoModel IoSpec ParseModel ParseSpec SvgModel SvgSpec.
Import ListNotations.
Local Open Scope R_scope.
#[local] Existing Instance RTrig.

Section T.
  Variable M : R.
  Context {X : Extra R} {ED : EqD (dtransf R)} {BS : BSearch} {G : Type} {RG : Rng R G}.
  Hypothesis BSok : bsearch_ok BS.
  #[local] Instance NW : Num R := RNumT Reqb M.
  Variable umax : nat.
  Variable pr : parser R.
  Hypothesis Ht : tol_ok (pr_simpl pr).
  Hypothesis Ep : @fPI R X = PI.
  Local Notation tol := (pr_simpl pr).
  Local Notation bin := (bin R (dtransf R)).
  Local Notation item := (item R).

  Lemma items_at : forall l items pres fs, items_ok M pr l items pres fs -> length fs = length items /\
    forall i it q f, nth_error items i = Some (it, q) -> nth_error fs i = Some f -> item_at (pre_of pres) it i (fi_outline f).
  Proof.
    intros l items pres fs I. pose proof (items_fit M pr _ _ _ _ I) as (L & _). split; [exact L|]. intros i it q f Hi Hf. destruct I as (F & L' & _ & K).
    destruct (nth_error l i) as [j|] eqn:Ej; [|exfalso; apply nth_error_None in Ej; apply nth_error_Some_lt in Hi; lia].
    destruct (K i j Ej) as (it' & f' & dx & dy & Hi' & Hf' & Rd & _). rewrite Hi in Hi'. injection Hi' as <- _. rewrite Hf in Hf'. injection Hf' as <-.
    split; [exact (ir_id _ _ _ _ _ _ _ _ Rd)|]. exists dx, dy. split; [exact (ir_motion _ _ _ _ _ _ _ _ Rd)|]. split; [exact (ir_pre _ _ _ _ _ _ _ _ Rd)|exact (ir_shape _ _ _ _ _ _ _ _ Rd)].
  Qed.
  Lemma drawn_exported : forall pre items o sn ptr d (ct : bin -> jcontainer R), snapshot_to_svg pr pre items o sn ptr = Ok d -> exists jl, export_layout pre items ct sn = Ok jl.
  Proof.
    intros pre items o sn ptr d ct H. unfold snapshot_to_svg in H. apply rbind_ok in H as (l & El & H).
    unfold layout_from_snapshot, layout_restore in El. apply rbind_ok in El as (? & _ & El). apply rbind_ok in El as (ce & _ & El). injection El as <-. cbn [layout_new ly_id ly_bin] in H.
    unfold layout_to_svg in H. cbn [ly_bin ly_items] in H. do 5 apply rbind_ok in H as (? & _ & H). apply rbind_ok in H as (uses & Eu & _). unfold export_layout.
    assert (K : exists pl, rmapM (export_item pre items (ls_bin sn)) (sm_values (ls_items sn)) = Ok pl).
    { clear - Eu. revert uses Eu. induction (sm_values (ls_items sn)) as [|p ps IH]; intros uses Eu; cbn [rmapM] in *; [exists []; reflexivity|].
      apply rbind_ok in Eu as (u & E1 & Eu). apply rbind_ok in Eu as (us & E2 & _). destruct (IH us E2) as (pl & E3). unfold item_use in E1. apply rbind_ok in E1 as (it & E1 & _).
      unfold export_item at 1. rewrite E1. cbn [rbind]. rewrite E3. eexists. reflexivity. }
    destruct K as (pl & ->). eexists. reflexivity.
  Qed.
  Lemma solution_exported : forall pre items o s ptr docs (ct : bin -> jcontainer R), draw_solution pr pre items o s ptr = Ok docs -> exists js, compose_json pre items ct s = Ok js.
  Proof.
    intros pre items o s ptr docs ct H. unfold draw_solution in H. unfold compose_json.
    assert (K : exists ls, rmapM (export_layout pre items ct) (so_layouts s) = Ok ls).
    { revert docs H. induction (so_layouts s) as [|sn l IH]; intros docs H; cbn [rmapM] in *; [exists []; reflexivity|].
      apply rbind_ok in H as (d & E1 & H). apply rbind_ok in H as (ds & E2 & _). destruct (IH ds E2) as (ls & ->). destruct (drawn_exported _ _ _ _ _ _ ct E1) as (jl & ->).
      eexists. reflexivity. }
    destruct K as (ls & ->). eexists. reflexivity.
  Qed.
  Definition known_bin (cs : list fbin) (b : bin) : Prop := exists k dx dy c, bn_id b = k /\ nth_error cs k = Some c /\ bin_at b dx dy c.
  Lemma bins_known : forall l bins cs, bins_ok M umax pr l bins cs -> Forall (fun x => known_bin cs (fst x)) bins.
  Proof.
    intros l bins cs B. apply Forall_forall. intros [b n] H. apply In_nth_error in H as (k & Hk). destruct (bins_nth _ _ _ _ _ _ _ _ _ B Hk) as (jb & c & dx & dy & _ & _ & Hc & Rd & _).
    exists k, dx, dy, c. split; [exact (br_id _ _ _ _ _ _ _ _ _ Rd)|]. split; [exact Hc|]. destruct c. eapply reads_at. exact Rd.
  Qed.
  Theorem pictures_bins : forall j ptr inst pres, parse umax pr j ptr = Ok (IBP inst, pres) ->
    exists bs fs cs, jn_bins j = Some bs /\ Forall2 (item_of_file tol) (jn_items j) fs /\ Forall2 (bin_of_file tol) bs cs /\
      forall s, (exists ovf ops p h, bp_run ovf inst ops = Ok (p, h) /\ In s h) \/ (exists cfg (g : G) ptr p p', lbf_bp inst cfg g ptr = Ok (p, s, p')) ->
      forall o ptr' docs, draw_solution pr (pre_of pres) (bi_items inst) o s ptr' = Ok docs ->
      exists js, bp_export (pre_of pres) inst s = Ok js /\
      Forall2 (fun d l => exists k c, jl_container l = JBin k /\ nth_error cs k = Some c /\ pictures fs c (jl_items l) d) docs (js_layouts js).
  Proof.
    intros j ptr inst pres H. destruct (parse_inv M umax pr Ht Ep _ _ _ _ H) as (fs & I & bs & bins & cs & Eb & _ & Hn & B). cbn [inst_items] in *.
    exists bs, fs, cs. split; [exact Eb|]. split; [exact (proj1 I)|]. split; [exact (proj1 B)|]. intros s Hs o ptr' docs Hd.
    destruct (solution_exported _ _ _ _ _ _ (fun b : bin => JBin (bn_id b)) Hd) as (js & Hj). exists js. split; [exact Hj|].
    assert (Ei : bi_bins inst = bins) by (unfold bpinst_new in Hn; apply rbind_ok in Hn as (? & _ & Hn); injection Hn as <-; reflexivity).
    assert (K : Forall (fun sn => known_bin cs (ls_bin sn)) (so_layouts s)).
    { pose proof (bins_known _ _ _ B) as Bk. rewrite <- Ei in Bk. destruct Hs as [(ovf & ops & p & h & Hr & Hs)|(cfg & g & ptr0 & p & p' & Hr)].
      - destruct (brun_PB (known_bin cs) inst ovf ops p h Bk Hr) as [_ _ _ P4]. rewrite Forall_forall in P4. exact (P4 s Hs).
      - destruct (lbf_bp_run M inst (inst_ids _ _ _ Hn) false _ _ _ _ _ _ Hr) as (ops & Hr' & _ & _ & Hc). pose proof (brun_PB (known_bin cs) inst _ _ p [] Bk Hr') as Pb.
        destruct (create_PB (known_bin cs) p [] None s p' Pb Logic.I Hc) as [_ _ _ P4]. rewrite Forall_forall in P4. exact (P4 s (or_introl eq_refl)). }
    destruct (items_at _ _ _ _ I) as (L & Ki).
    pose proof (solution_pictures M Ep pr (pre_of pres) (fun b jc c => jc = JBin (bn_id b) /\ nth_error cs (bn_id b) = Some c) (bi_items inst) o s ptr' docs (fun b : bin => JBin (bn_id b)) js fs L Ki) as Q.
    refine (F2_impl _ _ _ _ _ (Q _ Hd Hj)).
    - intros d l (b & c & (P1 & P2) & P3). exists (bn_id b), c. auto.
    - intros sn Hsn. rewrite Forall_forall in K. destruct (K sn Hsn) as (k & dx & dy & c & <- & E2 & E3). exists dx, dy, c. auto.
  Qed.
  Theorem pictures_strip : forall j ptr inst pres, parse umax pr j ptr = Ok (ISP inst, pres) ->
    exists hgt fs, jn_strip j = Some hgt /\ Forall2 (item_of_file tol) (jn_items j) fs /\
      (clean_items fs -> 0 < hgt -> forall fuel tl c cfg (g : G) ptr' p s p', 0 <= tl -> lbf_sp fuel tl inst c cfg g ptr' = Ok (Some (p, s, p')) ->
       forall o ptr'' docs, draw_solution pr (pre_of pres) (si_items inst) o s ptr'' = Ok docs ->
       exists w pl u us d, sp_export (pre_of pres) inst s = Ok (JS us [JL (JStrip w hgt) pl u]) /\ docs = [d] /\ pictures fs (FB (strip_outline w hgt) [] []) pl d).
  Proof.
    intros j ptr inst pres H. destruct (parse_inv M umax pr Ht Ep _ _ _ _ H) as (fs & I & hgt & _ & Es & Hn). cbn [inst_items] in *.
    exists hgt, fs. split; [exact Es|]. split; [exact (proj1 I)|]. intros Ci Hh fuel tl c cfg g ptr' p s p' Htl Hr o ptr'' docs Hd.
    pose proof (items_fine M pr _ _ _ _ I Ci) as Fi. destruct (items_at _ _ _ _ I) as (L & Ki).
    destruct (lbf_sp_packs M BSok _ _ _ _ _ _ _ _ _ _ _ _ Hn Fi Hr) as (sn & Esn & Pk & Cn & Y1 & Y2 & _ & Gs).
    destruct (lbf_sp_corner M BSok _ _ _ _ _ _ _ _ _ _ _ _ Hn Fi Htl Hr) as (sn' & r & c0 & ptr0 & Esn' & Eb & A & B). rewrite Esn in Esn'. injection Esn' as <-.
    destruct (strip_shift M _ _ _ _ Eb A B) as (Mo & Sh & At). cbn zeta in Sh, At. rewrite Rmin_left in Y1 by lra. rewrite Rmax_right in Y2 by lra.
    assert (Eh : si_height inst = hgt) by (unfold spinst_new in Hn; apply rbind_ok in Hn as (u & _ & Hn); injection Hn as <-; reflexivity).
    unfold draw_solution in Hd. rewrite Esn in Hd. cbn [rmapM] in Hd. apply rbind_ok in Hd as (d & Ed & Hd). injection Hd as <-.
    rewrite Y1, Y2 in At. rewrite Y1 in Sh. replace (hgt - 0) with hgt in At by lra.
    assert (Ex : exists jl, export_layout (pre_of pres) (si_items inst) (fun b : bin => JStrip (r_width (p_bbox (a_obj (bn_outer b)))) (si_height inst)) sn = Ok jl).
    { eapply drawn_exported. exact Ed. }
    destruct Ex as ([jc pl u] & Ex). exists (x_max (p_bbox (a_obj (bn_outer (ls_bin sn)))) - x_min (p_bbox (a_obj (bn_outer (ls_bin sn))))), pl, u, (so_usage s), d.
    split; [|split; [reflexivity|]].
    - unfold sp_export, compose_json. rewrite Esn. cbn [rmapM]. rewrite Ex. cbn [rbind].
      unfold export_layout in Ex. apply rbind_ok in Ex as (pl' & _ & Ex). injection Ex as <- <- <-. rewrite Eh. reflexivity.
    - change pl with (jl_items (JL jc pl u)). eapply (layout_pictures M Ep pr); [exact L|exact Ki| |exact Ed|exact Ex].
      split; cbn [fb_outer fb_holes fb_zones]; [exact Mo|exact Sh|exact At| |left].
      + unfold bin_from_strip, bin_new in Eb. repeat (apply rbind_ok in Eb as (? & _ & Eb)). injection Eb as <-. constructor.
      + unfold bin_from_strip, bin_new in Eb. repeat (apply rbind_ok in Eb as (? & _ & Eb)). injection Eb as <-. split; reflexivity.
  Qed.
End T.
