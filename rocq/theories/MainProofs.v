(** The program: what it writes, and that it ends without a panic. *)
From Coq Require Import List Bool Arith Lia.
From Verif Require Import Base Num GeoModel HazardModel QTModel TransfModel HpgModel CdeModel CdeSpec
  PolyModel ParserModel SimplModel SlotMapModel LayoutModel ProblemModel ProblemSpec LbfModel IoModel ParseModel SvgModel MainModel
  BaseProofs Instances ParityProofs PipProofs NormProofs XformProofs ConstructProofs RigidProofs RegionProofs RectPolyProofs LayoutProofs ProblemProofs ProblemOpsProofs
  MirrorProofs LbfBpProofs LbfThmProofs LbfHistProofs FitProofs LbfStripThmProofs LbfSpProofs IoProofs IoThmProofs HistBinProofs CombProofs ParseProofs ParseThmProofs ParseSpProofs ParseDrawnProofs
  ParseSolveProofs ParseExampleProofs ParseSideProofs SvgProofs SvgThmProofs SvgAllProofs.
From Coq Require Import Reals Lra.
From Verif Require Import GeoModel HazardModel QTModel TransfModel HpgModel CdeModel CdeSpec GeoSpec PlaceSpec HpgSpec ShapeSpec SimplSpec ProblemModel LbfModel LbfSpec IoModel IoSpec ParseModel ParseSpec SvgModel SvgSpec MainModel MainSpec.
Import ListNotations.
Local Open Scope R_scope.
#[local] Existing Instance RTrig.

Lemma rmapM_firstn : forall {A B} (f : A -> res B) l l' n, rmapM f l = Ok l' -> rmapM f (firstn n l) = Ok (firstn n l').
Proof.
  intros A B f. induction l as [|a l IH]; intros l' n H; cbn [rmapM] in H.
  - injection H as <-. rewrite !firstn_nil. reflexivity.
  - apply rbind_ok in H as (b & Eb & H). apply rbind_ok in H as (bs & Es & H). injection H as <-.
    destruct n as [|n]; [reflexivity|]. cbn [firstn rmapM]. rewrite Eb. cbn [rbind]. rewrite (IH _ n Es). reflexivity.
Qed.
Lemma rmapM_len : forall {A B} (f : A -> res B) l l', rmapM f l = Ok l' -> length l' = length l.
Proof.
  intros A B f. induction l as [|a l IH]; intros l' H; cbn [rmapM] in H; [injection H as <-; reflexivity|].
  apply rbind_ok in H as (b & _ & H). apply rbind_ok in H as (bs & Es & H). injection H as <-. cbn. f_equal. auto.
Qed.

Section P.
  Variable M : R.
  Context {X : Extra R} {ED : EqD (dtransf R)} {BS : BSearch} {G : Type} {RG : Rng R G}.
  Hypothesis BSok : bsearch_ok BS.
  #[local] Instance NP : Num R := RNumT Reqb M.
  Hypothesis Ep : @fPI R X = PI.
  Variable umax : nat.
  Variable piers : pier_cfg R.
  Variable tl : R.
  Variable fuel : nat.
  Local Notation bin := (bin R (dtransf R)).
  Local Notation solution := (solution R (dtransf R)).
  Local Notation main_parser := (main_parser piers).
  Local Notation write_svgs := (write_svgs piers).
  Local Notation write_all := (write_all piers).

  (** the drawings written are those of the first layouts *)
  Lemma svgs_prefix : forall c pre items ptr l k fs e, write_svgs c pre items k l ptr = (fs, e) ->
    exists ds, fs = map (fun x => FSvg (fst x) (snd x)) (combine (seq k (length ds)) ds) /\ (length ds <= length l)%nat /\ (e = Done <-> length ds = length l) /\ e <> Unfinished /\
      rmapM (fun sn => snapshot_to_svg (main_parser c) pre items (mc_draw c) sn ptr) (firstn (length ds) l) = Ok ds.
  Proof.
    intros c pre items ptr. induction l as [|sn l IH]; intros k fs e H; cbn [MainModel.write_svgs] in H.
    - injection H as <- <-. exists []. cbn. repeat split; auto; discriminate.
    - destruct (snapshot_to_svg (main_parser c) pre items (mc_draw c) sn ptr) as [d|] eqn:Ed.
      + destruct (MainModel.write_svgs piers c pre items (S k) l ptr) as [fs0 e0] eqn:Er. injection H as <- <-.
        destruct (IH _ _ _ Er) as (ds & -> & L & De & Ne & Ek). exists (d :: ds). cbn [length seq combine map fst snd firstn rmapM].
        split; [reflexivity|]. split; [lia|]. split; [rewrite De; split; lia|]. split; [exact Ne|]. rewrite Ed. cbn [rbind]. rewrite Ek. reflexivity.
      + injection H as <- <-. exists []. cbn. split; [reflexivity|]. split; [lia|]. split; [split; discriminate|]. split; [discriminate|reflexivity].
  Qed.
  Lemma svgs_all : forall c pre items ptr l k ds, rmapM (fun sn => snapshot_to_svg (main_parser c) pre items (mc_draw c) sn ptr) l = Ok ds ->
    write_svgs c pre items k l ptr = (map (fun x => FSvg (fst x) (snd x)) (combine (seq k (length ds)) ds), Done).
  Proof.
    intros c pre items ptr. induction l as [|sn l IH]; intros k ds H; cbn [rmapM] in H; [injection H as <-; reflexivity|].
    apply rbind_ok in H as (d & Ed & H). apply rbind_ok in H as (ds' & Es & H). injection H as <-. cbn [MainModel.write_svgs]. rewrite Ed, (IH (S k) _ Es). reflexivity.
  Qed.
  (** the first [n] layouts of a solution *)
  Definition cut (n : nat) (s : solution) : solution := Sol (so_id s) (firstn n (so_layouts s)) (so_usage s) (so_placed s) (so_target s) (so_bins s).

  Lemma pictures_cut : forall pr j ptr inst pres, tol_ok (pr_simpl pr) -> parse umax pr j ptr = Ok (IBP inst, pres) ->
    exists bs fs cs, jn_bins j = Some bs /\ Forall2 (item_of_file (pr_simpl pr)) (jn_items j) fs /\ Forall2 (bin_of_file (pr_simpl pr)) bs cs /\
      forall cfg (g : G) ptr0 p s p', lbf_bp inst cfg g ptr0 = Ok (p, s, p') ->
      forall o n ptr' docs js, rmapM (fun sn => snapshot_to_svg pr (pre_of pres) (bi_items inst) o sn ptr') (firstn n (so_layouts s)) = Ok docs ->
      bp_export (pre_of pres) inst s = Ok js ->
      Forall2 (fun d l => exists k c, jl_container l = JBin k /\ nth_error cs k = Some c /\ pictures fs c (jl_items l) d) docs (firstn n (js_layouts js)).
  Proof.
    intros pr j ptr inst pres Ht H. destruct (parse_inv M umax pr Ht Ep _ _ _ _ H) as (fs & I & bs & bins & cs & Eb & _ & Hn & B). cbn [inst_items] in *.
    exists bs, fs, cs. split; [exact Eb|]. split; [exact (proj1 I)|]. split; [exact (proj1 B)|]. intros cfg g ptr0 p s p' Hr o n ptr' docs js Hd Hj.
    assert (Ei : bi_bins inst = bins) by (unfold bpinst_new in Hn; apply rbind_ok in Hn as (? & _ & Hn); injection Hn as <-; reflexivity).
    assert (K : Forall (fun sn => known_bin cs (ls_bin sn)) (so_layouts s)).
    { pose proof (bins_known M umax pr _ _ _ B) as Bk. rewrite <- Ei in Bk.
      destruct (lbf_bp_run M inst (inst_ids _ _ _ Hn) false _ _ _ _ _ _ Hr) as (ops & Hr' & _ & _ & Hc). pose proof (brun_PB (known_bin cs) inst _ _ p [] Bk Hr') as Pb.
      destruct (create_PB (known_bin cs) p [] None s p' Pb Logic.I Hc) as [_ _ _ P4]. rewrite Forall_forall in P4. exact (P4 s (or_introl eq_refl)). }
    destruct (items_at M pr _ _ _ _ I) as (L & Ki).
    unfold bp_export, compose_json in Hj. apply rbind_ok in Hj as (ls & El & Hj). injection Hj as <-. cbn [js_layouts].
    pose proof (solution_pictures M Ep pr (pre_of pres) (fun b jc c => jc = JBin (bn_id b) /\ nth_error cs (bn_id b) = Some c) (bi_items inst) o (cut n s) ptr' docs (fun b : bin => JBin (bn_id b)) (JS (so_usage s) (firstn n ls)) fs L Ki) as Q.
    refine (F2_impl _ _ _ _ _ (Q _ Hd _)).
    - intros d l (b & c & (P1 & P2) & P3). exists (bn_id b), c. auto.
    - intros sn Hsn. cbn [cut so_layouts] in Hsn. assert (In sn (so_layouts s)) as Hsn' by (rewrite <- (firstn_skipn n (so_layouts s)); apply in_or_app; left; exact Hsn).
      rewrite Forall_forall in K. destruct (K sn Hsn') as (k & dx & dy & c & <- & E2 & E3). exists dx, dy, c. auto.
    - unfold compose_json. change (so_layouts (cut n s)) with (firstn n (so_layouts s)). erewrite (rmapM_firstn _ _ ls n); [reflexivity|exact El].
  Qed.

  Variable c : main_cfg R.
  Local Notation program := (program umax piers tl fuel c).
  Hypothesis Htol : match mc_tol c with Some t => 0 <= t < 1 | None => True end.
  Lemma tol_main : tol_ok (pr_simpl (main_parser c)).
  Proof. cbn. unfold tol_ok. destruct (mc_tol c); [lra|exact I]. Qed.

  Theorem writes_bins : forall j bs, jn_bins j = Some bs -> simple_items (map file_item (jn_items j)) -> simple_bins (map file_bin bs) ->
    forall g p1 p2 p3 files e, program j g p1 p2 p3 = (files, e) ->
    (files = [] /\ e = Aborted) \/
    exists js ds, files = FSol j js c :: drawings ds /\ (length ds <= length (js_layouts js))%nat /\ (e = Done <-> length ds = length (js_layouts js)) /\ e <> Unfinished /\
      Forall (fun l => exists k jb, jl_container l = JBin k /\ nth_error bs k = Some jb /\ packs (map file_item (jn_items j)) (file_bin jb) (jl_items l) /\ jl_items l <> []) (js_layouts js) /\
      (forall i ji, nth_error (jn_items j) i = Some ji -> (item_copies i (js_layouts js) <= ji_demand ji)%nat) /\
      (forall b jb n, nth_error bs b = Some jb -> jb_stock jb = Some n -> (bins_used b (js_layouts js) <= n)%nat) /\
      exists fs cs, Forall2 (item_of_file (mc_tol c)) (jn_items j) fs /\ Forall2 (bin_of_file (mc_tol c)) bs cs /\
        Forall2 (fun d l => exists k b, jl_container l = JBin k /\ nth_error cs k = Some b /\ pictures fs b (jl_items l) d) ds (firstn (length ds) (js_layouts js)).
  Proof.
    intros j bs Ebs Si Sb g p1 p2 p3 files e H. unfold MainModel.program in H.
    destruct (parse umax (main_parser c) j p1) as [[[inst|inst] pres]|] eqn:Epa; [| |injection H as <- <-; left; auto].
    - destruct (lbf_bp inst (mc_lbf c) g p2) as [[[p s] p']|] eqn:Er; [|injection H as <- <-; left; auto].
      destruct (side_bins M BSok umax (main_parser c) Ep Htol _ _ _ _ Epa) as (bs' & Eb' & K). rewrite Ebs in Eb'. injection Eb' as <-.
      destruct (K Si Sb _ _ _ _ _ _ Er) as (js & Ej & Pk & Dm & St). unfold MainModel.write_all in H.
      match type of H with context [match ?x with Ok _ => _ | Panic => _ end] => assert (Ej2 : x = _) by exact Ej; rewrite Ej2 in H; clear Ej2 end.
      destruct (MainModel.write_svgs piers c (pre_of pres) (bi_items inst) 0 (so_layouts s) p3) as [fl e0] eqn:Ew. injection H as <- <-. right.
      destruct (svgs_prefix _ _ _ _ _ _ _ _ Ew) as (ds & -> & L & De & Ne & Ed).
      destruct (pictures_cut (main_parser c) _ _ _ _ tol_main Epa) as (bs' & fs & cs & Eb' & Fi & Fb & Pi). rewrite Ebs in Eb'. injection Eb' as <-.
      assert (Ll : length (js_layouts js) = length (so_layouts s)).
      { unfold bp_export, compose_json in Ej. apply rbind_ok in Ej as (ls & El & Ej). injection Ej as <-. exact (rmapM_len _ _ _ El). }
      exists js, ds. split; [reflexivity|]. rewrite Ll. split; [exact L|]. split; [exact De|]. split; [exact Ne|]. split; [exact Pk|]. split; [exact Dm|]. split; [exact St|].
      exists fs, cs. split; [exact Fi|]. split; [exact Fb|]. exact (Pi _ _ _ _ _ _ Er _ _ _ _ _ Ed Ej).
    - exfalso. destruct (parse_inv M umax (main_parser c) tol_main Ep _ _ _ _ Epa) as (fs & _ & hgt & En & _). congruence.
  Qed.

  Theorem writes_strip : forall j hgt, 0 <= tl -> jn_strip j = Some hgt -> 0 < hgt -> simple_items (map file_item (jn_items j)) ->
    forall g p1 p2 p3 files e, program j g p1 p2 p3 = (files, e) ->
    (files = [] /\ e <> Done) \/
    exists w pl u us ds, files = FSol j (JS us [JL (JStrip w hgt) pl u]) c :: drawings ds /\ 0 < w /\
      (e = Done /\ length ds = 1%nat \/ e = Aborted /\ ds = []) /\
      packing (map file_item (jn_items j)) (strip_outline w hgt) [] [] pl /\
      (forall i ji, nth_error (jn_items j) i = Some ji -> length (filter (Nat.eqb i) (map fst pl)) = ji_demand ji) /\
      exists fs, Forall2 (item_of_file (mc_tol c)) (jn_items j) fs /\ (clean_items fs -> Forall (pictures fs (FB (strip_outline w hgt) [] []) pl) ds).
  Proof.
    intros j hgt Htl Eh Hh Si g p1 p2 p3 files e H. unfold MainModel.program in H.
    destruct (parse umax (main_parser c) j p1) as [[[inst|inst] pres]|] eqn:Epa; [| |injection H as <- <-; left; split; [reflexivity|discriminate]].
    - exfalso. destruct (parse_inv M umax (main_parser c) tol_main Ep _ _ _ _ Epa) as (fs & _ & bs & bins & cs & _ & En & _). congruence.
    - destruct (lbf_sp fuel tl inst (mc_cde c) (mc_lbf c) g p2) as [[[[p s] p']|]|] eqn:Er; [| |injection H as <- <-; left; split; [reflexivity|discriminate]].
      2: { injection H as <- <-; left; split; [reflexivity|discriminate]. }
      destruct (side_strip M BSok umax (main_parser c) Ep tol_main _ _ _ _ Epa) as (hgt' & Eh' & K). rewrite Eh in Eh'. injection Eh' as <-.
      destruct (K Si Hh _ _ _ _ _ _ _ _ _ Htl Er) as (w & pl & u & us & Ej & Hw & Pk & Dm). unfold MainModel.write_all in H.
      match type of H with context [match ?x with Ok _ => _ | Panic => _ end] => assert (Ej2 : x = _) by exact Ej; rewrite Ej2 in H; clear Ej2 end.
      destruct (MainModel.write_svgs piers c (pre_of pres) (si_items inst) 0 (so_layouts s) p3) as [fl e0] eqn:Ew. injection H as <- <-. right.
      destruct (svgs_prefix _ _ _ _ _ _ _ _ Ew) as (ds & -> & L & De & Ne & Ed).
      assert (Ll : length (so_layouts s) = 1%nat).
      { unfold sp_export, compose_json in Ej. apply rbind_ok in Ej as (ls & El & Ej). injection Ej as _ El'. rewrite El' in El. symmetry. exact (rmapM_len _ _ _ El). }
      exists w, pl, u, us, ds. split; [reflexivity|]. split; [exact Hw|].
      assert (Cs : e0 = Done /\ length ds = 1%nat \/ e0 = Aborted /\ ds = []).
      { rewrite Ll in *. destruct ds as [|d [|d' ds]]; cbn [length] in *; [right|left|lia].
        - split; [|reflexivity]. destruct e0; [|reflexivity|congruence]. destruct De as (De & _). discriminate (De eq_refl).
        - split; [apply De|]; reflexivity. }
      split; [exact Cs|]. split; [exact Pk|]. split; [exact Dm|].
      destruct (pictures_strip M BSok umax (main_parser c) tol_main Ep _ _ _ _ Epa) as (hgt' & fs & Eh' & Fi & Pi). rewrite Eh in Eh'. injection Eh' as <-.
      exists fs. split; [exact Fi|]. intros Cl. destruct Cs as [(_ & Cs)|(_ & ->)]; [|constructor].
      rewrite Cs, <- Ll, firstn_all in Ed. destruct (Pi Cl Hh _ _ _ _ _ _ _ _ _ Htl Er _ _ _ Ed) as (w' & pl' & u' & us' & d & Ej' & -> & Pc).
      assert (Ee : Ok (JS us [JL (JStrip w hgt) pl u]) = Ok (JS us' [JL (JStrip w' hgt) pl' u'])) by (etransitivity; [symmetry; exact Ej|exact Ej']).
      injection Ee as <- <- <- <-. constructor; [exact Pc|constructor].
  Qed.

  (** *** no panic *)
  Hypothesis Pow : sane_extra X.
  Lemma bins_done_gen : forall j p1 inst pres bs, runs c -> parse umax (main_parser c) j p1 = Ok (IBP inst, pres) -> jn_bins j = Some bs ->
    (forall fs, Forall2 (item_of_file (mc_tol c)) (jn_items j) fs -> Forall (tame M) fs /\ forall f, In f fs -> match fi_quality f with Some q => (q < 10)%nat | None => True end) ->
    (forall cs, Forall2 (bin_of_file (mc_tol c)) bs cs -> clean_bins cs) ->
    forall g p2 p3, exists files, program j g p1 p2 p3 = (files, Done).
  Proof.
    intros j p1 inst pres bs (R1 & R2 & R3 & R4) Epa Eb Hi Hb g p2 p3.
    destruct (solves_bins M BSok umax (main_parser c) tol_main Ep Pow _ _ _ _ Epa) as (bs' & fs & cs & Eb' & Fi & Fb & K). rewrite Eb in Eb'. injection Eb' as <-.
    destruct (Hi fs Fi) as (T & _). destruct (K T (Hb _ Fb) R3 (mc_lbf c) g p2 R1 R2) as (p & s & p' & Er). clear K T Fi Fb fs cs.
    destruct (SvgAllProofs.drawn_bins M (RG := RG) BSok umax (main_parser c) tol_main Ep _ _ _ _ Epa) as (bs' & fs & cs & Eb' & Fi & Fb & K). rewrite Eb in Eb'. injection Eb' as <-.
    destruct (Hi fs Fi) as (T & Q). assert (Cl : clean_items fs) by (intros f Hf; rewrite Forall_forall in T; exact (proj1 (T f Hf))).
    assert (Mb : made_by M (RG := RG) inst s) by (right; exists (mc_lbf c), g, p2, p, p'; exact Er).
    destruct (K Cl (Hb _ Fb) Q s Mb (mc_draw c) p3 R4 (fun _ => R3)) as (docs & Ed).
    destruct (solution_exported M (main_parser c) _ _ _ _ _ _ (fun b : bin => JBin (bn_id b)) Ed) as (js & Ej).
    unfold MainModel.program. rewrite Epa.
    match goal with |- context [match ?x with Ok _ => _ | Panic => _ end] => assert (E2 : x = _) by exact Er; rewrite E2; clear E2 end. unfold MainModel.write_all.
    match goal with |- context [match ?x with Ok _ => _ | Panic => _ end] => assert (E2 : x = _) by exact Ej; rewrite E2; clear E2 end.
    match goal with |- context [let '(_, _) := ?x in _] => assert (E2 : x = _) by exact (svgs_all _ _ _ _ _ 0 _ Ed); rewrite E2; clear E2 end. eauto.
  Qed.
  Theorem bins_done : forall j p1 bs, runs c -> mc_tol c = None -> (exists x, parse umax (main_parser c) j p1 = Ok x) -> jn_bins j = Some bs ->
    Forall (tame M) (map file_item (jn_items j)) -> (forall ji q, In ji (jn_items j) -> ji_quality ji = Some q -> (q < 10)%nat) -> clean_bins (map file_bin bs) ->
    forall g p2 p3, exists files, program j g p1 p2 p3 = (files, Done).
  Proof.
    intros j p1 bs Rn Hs ([i pres] & Epa) Eb Ti Qi Cb. destruct i as [inst|inst].
    2: { exfalso. destruct (parse_inv M umax (main_parser c) tol_main Ep _ _ _ _ Epa) as (fs & _ & hgt & En & _). congruence. }
    apply (bins_done_gen j p1 inst pres bs Rn Epa Eb); rewrite Hs.
    - intros fs Fi. split; [exact (like_tame _ _ _ (F2_map_r _ _ _ _ _ item_like Fi) Ti)|].
      intros f Hf. apply (F2_in_r _ _ _ _ Fi) in Hf as (ji & Hj & _ & _ & ->). destruct (ji_quality ji) as [q|] eqn:Eq; [|exact Logic.I]. exact (Qi ji q Hj Eq).
    - intros cs Fb. exact (like_clean_bins _ _ (F2_map_r _ _ _ _ _ bin_like Fb) Cb).
  Qed.
  (** rectangles are drawn as they are, with or without simplification *)
  Lemma rect_file_item : forall m tol l fs, Forall (rect_item m) l -> Forall2 (item_of_file tol) l fs -> Forall2 (item_of_file None) l fs.
  Proof.
    intros m tol l fs H F. induction F as [|j f l fs Hj F IH]; [constructor|]. constructor; [|exact (IH (Forall_inv_tail H))].
    destruct (Forall_inv H) as ((w & h & Es & _) & _). unfold item_of_file, sketched in *. rewrite Es in *. exact Hj.
  Qed.
  Lemma rect_file_bin : forall tol l fs, Forall rect_bin l -> Forall2 (bin_of_file tol) l fs -> Forall2 (bin_of_file None) l fs.
  Proof.
    intros tol l fs H F. induction F as [|j f l fs Hj F IH]; [constructor|]. constructor; [|exact (IH (Forall_inv_tail H))].
    destruct (Forall_inv H) as (Ez & w & h & Es & _). unfold bin_of_file, sketched in *. rewrite Es, Ez in *. cbn [cutouts] in *. destruct Hj as (A & B & C).
    split; [exact A|]. split; [inversion B; constructor|inversion C; constructor].
  Qed.
  Lemma rect_tame : forall l, Forall (rect_item M) l -> Forall (tame M) (map file_item l).
  Proof.
    intros l H. apply Forall_forall. intros f Hf. apply in_map_iff in Hf as (j & <- & Hj). rewrite Forall_forall in H. destruct (H j Hj) as ((w & h & Es & Hw & Hh) & Q).
    unfold tame, file_item. rewrite Es. cbn [fi_outline fi_quality outline]. split; [apply (rect_spikes 0 0 w h); lra|]. split.
    - intros p q Hp Hq. cbn [In] in Hp, Hq. repeat (destruct Hp as [<-|Hp]; [repeat (destruct Hq as [<-|Hq]; [cbn; lra|]); destruct Hq|]). destruct Hp.
    - intros q Eq. rewrite Eq in Q. lia.
  Qed.
  Lemma rect_clean : forall l, Forall rect_bin l -> clean_bins (map file_bin l).
  Proof.
    intros l H f Hf. apply in_map_iff in Hf as (j & <- & Hj). rewrite Forall_forall in H. destruct (H j Hj) as (Ez & w & h & Es & Hw & Hh & _).
    unfold file_bin. rewrite Es, Ez. cbn [fb_outer fb_holes fb_zones outline cutouts map]. split; [apply (rect_spikes 0 0 w h); lra|]. split; intros ? [].
  Qed.
  Lemma rect_quality : forall l fs, Forall (rect_item M) l -> Forall2 (item_of_file None) l fs -> forall f, In f fs -> match fi_quality f with Some q => (q < 10)%nat | None => True end.
  Proof.
    intros l fs H F f Hf. apply (F2_in_r _ _ _ _ F) in Hf as (ji & Hj & _ & _ & ->). rewrite Forall_forall in H. exact (proj2 (H ji Hj)).
  Qed.
  Theorem rect_done : forall goal nff items bs, runs c -> mc_surr c = SC goal 1 nff 0 -> Forall (rect_item M) items -> Forall rect_bin bs ->
    forall g p1 p2 p3, exists files, program (JIn items (Some bs) None) g p1 p2 p3 = (files, Done).
  Proof.
    intros goal nff items bs Rn Hq Hi Hb g p1 p2 p3.
    destruct (box_file M (X := X) BSok umax (main_parser c) goal nff Hq items bs p1) as (inst & pres & Epa).
    - apply Rn.
    - eapply Forall_impl; [|exact Hi]. intros j ((w & h & Es & Hw & Hh) & _). exists w, h. intuition lra.
    - exact Hb.
    - apply (bins_done_gen _ p1 inst pres bs Rn Epa eq_refl); cbn [jn_items].
      + intros fs Fi. apply (rect_file_item _ _ _ _ Hi) in Fi. split; [exact (like_tame _ _ _ (F2_map_r _ _ _ _ _ item_like Fi) (rect_tame _ Hi))|exact (rect_quality _ _ Hi Fi)].
      + intros cs Fb. apply (rect_file_bin _ _ _ Hb) in Fb. exact (like_clean_bins _ _ (F2_map_r _ _ _ _ _ bin_like Fb) (rect_clean _ Hb)).
  Qed.
  (** strips of rectangles: the search may go on, but nothing panics *)
  Theorem rect_strip_done : forall goal nff items hgt, runs c -> 0 < tl -> mc_surr c = SC goal 1 nff 0 -> Forall (rect_item M) items -> (exists ji, In ji items /\ (0 < ji_demand ji)%nat) ->
    0 < hgt -> strips_constructible (mc_cde c) hgt ->
    forall g p1 p2 p3, exists files e, program (JIn items None (Some hgt)) g p1 p2 p3 = (files, e) /\ e <> Aborted.
  Proof.
    intros goal nff items hgt (R1 & R2 & R3 & R4) Htl Hq Hi Dm Hh Con g p1 p2 p3.
    destruct (box_strip M (X := X) umax (main_parser c) goal nff Hq items hgt p1) as (inst & pres & Epa).
    { eapply Forall_impl; [|exact Hi]. intros j ((w & h & Es & Hw & Hh') & _). exists w, h. intuition lra. }
    destruct (solves_strip M BSok umax (main_parser c) tol_main Ep Pow _ _ _ _ Epa) as (hgt' & fs & Eh & Fi & K). cbn [jn_strip] in Eh. injection Eh as <-.
    apply (rect_file_item _ _ _ _ Hi) in Fi.
    destruct (K (like_tame _ _ _ (F2_map_r _ _ _ _ _ item_like Fi) (rect_tame _ Hi)) Dm Hh fuel tl (mc_cde c) (mc_lbf c) g p2 Htl R3 Con R1 R2) as (o & Er). clear K Fi fs.
    unfold MainModel.program.
    match goal with |- context [match ?x with Ok _ => _ | Panic => _ end] => assert (E2 : x = _) by exact Epa; rewrite E2; clear E2 end.
    match goal with |- context [match ?x with Ok _ => _ | Panic => _ end] => assert (E2 : x = _) by exact Er; rewrite E2; clear E2 end. destruct o as [[[p s] p']|]; [|exists [], Unfinished; split; [reflexivity|discriminate]].
    destruct (SvgAllProofs.drawn_strip M (RG := RG) BSok umax (main_parser c) tol_main Ep _ _ _ _ Epa) as (hgt' & fs & Eh & Fi & K).
    apply (rect_file_item _ _ _ _ Hi) in Fi.
    assert (Cl : clean_items fs).
    { intros f Hf. pose proof (like_tame _ _ _ (F2_map_r _ _ _ _ _ item_like Fi) (rect_tame _ Hi)) as T. rewrite Forall_forall in T. exact (proj1 (T f Hf)). }
    destruct (K Cl (rect_quality _ _ Hi Fi) fuel tl (mc_cde c) (mc_lbf c) g p2 p s p' (Rlt_le _ _ Htl) Er (mc_draw c) p3 R4 (fun _ => R3)) as (docs & Ed).
    destruct (solution_exported M (main_parser c) _ _ _ _ _ _ (fun b : bin => JStrip (r_width (p_bbox (a_obj (bn_outer b)))) (si_height inst)) Ed) as (js & Ej).
    unfold MainModel.write_all.
    match goal with |- context [match ?x with Ok _ => _ | Panic => _ end] => assert (E2 : x = _) by exact Ej; rewrite E2; clear E2 end.
    match goal with |- context [let '(_, _) := ?x in _] => assert (E2 : x = _) by exact (svgs_all _ _ _ _ _ 0 _ Ed); rewrite E2; clear E2 end. eexists _, Done. split; [reflexivity|discriminate].
  Qed.
End P.
