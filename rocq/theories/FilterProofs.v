(** Quality zones: what the hazard filter of an item leaves out, and what the proximity grid
    takes into account. *)
From Coq Require Import List Bool Arith ZArith Lia Permutation.
From Verif Require Import Base Num GeoModel HazardModel QTModel TransfModel HpgModel CdeModel CdeSpec
  PolyModel SlotMapModel LayoutModel ProblemModel ProblemSpec LbfModel BaseProofs HazVecProofs QTProofs CdeProofs CdeHistProofs CdeThmProofs ProblemProofs ProblemOpsProofs LayoutProofs MirrorProofs StripProofs Instances
  GeoPrimProofs ParityProofs RigidProofs RegionProofs PlaceExampleProofs RectPolyProofs HpgSpec HpgGridProofs HpgGenProofs HpgHistProofs HpgThmProofs HpgRectProofs LbfSpec LbfProofs LbfRunProofs LbfHistProofs LbfSpProofs LbfExampleProofs LbfTotalProofs LbfBpTotalProofs StripBinProofs LbfStripThmProofs LbfExample2Proofs.
From Coq Require Import Reals Lra.
From Verif Require Import GeoModel HazardModel QTModel TransfModel HpgModel CdeModel CdeSpec GeoSpec PlaceSpec HpgSpec ShapeSpec LbfModel LbfSpec.
Import ListNotations.

Lemma nth_lt : forall A (l : list A) k x, nth_error l k = Some x -> k < length l.
Proof. intros A l k x H. apply nth_error_Some. rewrite H. discriminate. Qed.
Lemma filter_all : forall A (f : A -> bool) l, (forall x, In x l -> f x = true) -> filter f l = l.
Proof.
  induction l as [|x l IH]; intros H; cbn; [reflexivity|]. rewrite (H x (or_introl eq_refl)). f_equal. apply IH. intros y Hy. apply H. right. exact Hy.
Qed.
Lemma nth_firstn : forall A (l : list A) k n, k < n -> nth_error (firstn n l) k = nth_error l k.
Proof. induction l as [|x l IH]; intros [|k] [|n] L; cbn; try reflexivity; try lia. apply IH. lia. Qed.
(** *** the engine *)
Section Engine.
  Context {F : Type} {N : Num F} {D : Type} {ED : EqD D} {BS : BSearch}.
  Hypothesis BSok : bsearch_ok BS.

  Lemma dyn_universal : forall (ops : list (op F D)), (forall h, In (OReg h) ops -> ent_universal (h_ent h) = true) ->
    forall f, In f (dynamic_facts ops) -> ent_universal (f_ent f) = true.
  Proof.
    intros ops Hu. assert (K : forall l (a : astate), incl l ops ->
      (forall f, In f (fst a) -> ent_universal (f_ent f) = true) -> (forall A f, In A (snd a) -> In f A -> ent_universal (f_ent f) = true) ->
      forall f : CdeSpec.fact F D, In f (fst (fold_left astep l a)) -> ent_universal (f_ent f) = true).
    { induction l as [|o l IH]; intros [A sv] Il Ha Hs; cbn [fold_left]; [exact Ha|].
      assert (Il' : incl l ops) by (intros x Hx; apply Il; right; exact Hx). assert (Io : In o ops) by (apply Il; left; reflexivity).
      destruct o as [h|e b| | | |k]; cbn [astep fst snd] in *; apply IH; cbn [fst snd]; auto.
      - intros f [<-|Hf]; [exact (Hu h Io)|apply Ha; exact Hf].
      - intros f Hf. apply filter_In in Hf. apply Ha. apply Hf.
      - intros A' f HA Hf. apply in_app_or in HA as [HA|[<-|[]]]; [eapply Hs; eassumption|apply Ha; exact Hf].
      - intros f Hf. destruct (Nat.lt_ge_cases k (length sv)) as [Lt|Ge]; [eapply Hs; [apply nth_In; exact Lt|exact Hf]|rewrite nth_overflow in Hf by exact Ge; destruct Hf]. }
    intros f. apply (K ops ([], [])); [apply incl_refl|intros ? []|intros ? ? []].
  Qed.
  Lemma tolerates_zone : forall q (e : entity D), tolerates q e -> ent_universal e = false.
  Proof. intros q e (k & i & -> & _). reflexivity. Qed.

  Theorem filter_absent : forall bb depth sts ops n (c : cde F D) sn sts' n' c' sn' (q : question F D) bq,
    valid sts ops -> engine bb sts depth n ops = Ok (c, sn) -> valid sts' ops -> engine bb sts' depth n' ops = Ok (c', sn') ->
    (forall h, In (OReg h) ops -> ent_universal (h_ent h) = true) ->
    (forall h, In h sts' <-> In h sts /\ ~ tolerates bq (h_ent h)) -> good_question q -> has_irr q = true ->
    exists t, ask c (with_irr q (item_irrelevant bq (all_hazards c))) = Ok t /\ ask c' (with_irr q []) = Ok t.
  Proof.
    intros bb depth sts ops n c sn sts' n' c' sn' q bq V E V' E' Hu Hs Gq Hi.
    eapply (ignore_absent BSok); [exact V|exact E|exact V'|exact E'| |exact Gq|exact Hi].
    destruct (engine_inv BSok bb sts depth n ops c sn V E) as (_ & P & _).
    assert (Me : forall f, In f (facts sts ops) -> (memb ent_eqb (f_ent f) (item_irrelevant bq (all_hazards c)) = true <-> tolerates bq (f_ent f))).
    { intros f Hf. rewrite memb_ent. rewrite item_irrelevant_spec. split; [tauto|]. intros T. split; [|exact T].
      apply (Permutation_in _ (Permutation_sym P)) in Hf. unfold registered in Hf. apply in_map_iff in Hf as (h & <- & Hh).
      apply in_map_iff. exists h. split; [reflexivity|exact Hh]. }
    unfold facts in *. rewrite filter_app.
    assert (E2 : filter (fun f => negb (memb ent_eqb (f_ent f) (item_irrelevant bq (all_hazards c)))) (dynamic_facts ops) = dynamic_facts ops).
    { apply filter_all. intros f Hf. apply negb_true_iff. destruct (memb _ _ _) eqn:Em; [|reflexivity]. exfalso.
      apply Me in Em; [|apply in_or_app; right; exact Hf]. apply tolerates_zone in Em. rewrite (dyn_universal ops Hu f Hf) in Em. discriminate. }
    rewrite E2. apply Permutation_app_tail.
    destruct V as ((_ & Nd) & _). destruct V' as ((_ & Nd') & _).
    assert (NDf : forall l : list (hazard F D), NoDup (map (@h_ent F D) l) -> NoDup (map fact_of l)).
    { intros l H. apply (NoDup_map_inv f_ent). rewrite map_map. exact H. }
    apply NoDup_Permutation; [apply NoDup_filter; apply NDf; exact Nd|apply NDf; exact Nd'|].
    intros f. rewrite filter_In. split.
    - intros (Hf & Hn). apply in_map_iff in Hf as (h & <- & Hh). apply in_map. apply Hs. split; [exact Hh|]. intros T.
      apply negb_true_iff in Hn. assert (X : memb ent_eqb (f_ent (fact_of h)) (item_irrelevant bq (all_hazards c)) = true).
      { apply Me; [|exact T]. apply in_or_app. left. apply in_map. exact Hh. } congruence.
    - intros Hf. apply in_map_iff in Hf as (h & <- & Hh). apply Hs in Hh as (Hh & Ht). split; [apply in_map; exact Hh|]. apply negb_true_iff.
      destruct (memb _ _ _) eqn:Em; [|reflexivity]. exfalso. apply Ht. apply Me in Em; [exact Em|]. apply in_or_app. left. apply in_map. exact Hh.
  Qed.
End Engine.

(** *** the grid *)
Section Grid.
  Variable M : R.
  #[local] Instance NFi : Num R := RNumT Reqb M.
  Context {D : Type} {ED : EqD D} {BS : BSearch}.
  Hypothesis BSok : bsearch_ok BS.
  Local Open Scope R_scope.

  Lemma prox_fold : forall (ce : cell R D) n p, (n <= length (c_qz ce))%nat ->
    rfold (fun p k => z <- expect (nth_error (c_qz ce) k) ;; Ok (fmin p z)) (seq 0 n) p = Ok (fold_left Rmin (firstn n (c_qz ce)) p).
  Proof.
    intros ce. induction n as [|n IH]; intros p Hn; [reflexivity|].
    replace (seq 0 (S n)) with (seq 0 n ++ [n]) by (symmetry; apply seq_S). rewrite rfold_app, IH by lia. cbn [rbind rfold].
    destruct (nth_error (c_qz ce) n) as [z|] eqn:En; [|apply nth_error_None in En; lia]. cbn [expect rbind].
    assert (Ef : firstn (S n) (c_qz ce) = firstn n (c_qz ce) ++ [z]).
    { clear -En. revert n En. induction (c_qz ce) as [|x l IHl]; intros [|n] En; cbn in *; try discriminate; [injection En as ->; reflexivity|].
      f_equal. apply IHl. exact En. }
    rewrite Ef, fold_left_app. reflexivity.
  Qed.
  Lemma prox_panic : forall (ce : cell R D) n p, (length (c_qz ce) < n)%nat ->
    rfold (fun p k => z <- expect (nth_error (c_qz ce) k) ;; Ok (fmin p z)) (seq 0 n) p = Panic.
  Proof.
    intros ce n p Hn. replace (seq 0 n) with (seq 0 (length (c_qz ce)) ++ seq (length (c_qz ce)) (n - length (c_qz ce))) by (rewrite <- seq_app; f_equal; lia).
    rewrite rfold_app, prox_fold by lia. cbn [rbind]. destruct (n - length (c_qz ce))%nat eqn:Em; [lia|]. cbn [seq rfold].
    destruct (nth_error (c_qz ce) (length (c_qz ce))) eqn:En; [|reflexivity]. apply nth_lt in En. lia.
  Qed.
  Lemma fold_min_split : forall l p m, fold_left Rmin l (Rmin p m) = Rmin p (fold_left Rmin l m).
  Proof. induction l as [|x l IH]; intros p m; cbn; [reflexivity|]. rewrite <- IH. f_equal. symmetry; apply Rmin_assoc. Qed.

  Lemma nearest_min : forall sts cen (l : list R) (P : nat -> hazard R D -> Prop) (Q : hazard R D -> Prop),
    (forall k z, nth_error l k = Some z -> nearest M sts (P k) cen z) ->
    (forall h, In h sts -> (Q h <-> exists k, (k < length l)%nat /\ P k h)) -> nearest M sts Q cen (fold_left Rmin l M).
  Proof.
    intros sts cen l P Q Hl Hq.
    assert (A : forall l m, fold_left Rmin l m <= m /\ (forall z, In z l -> fold_left Rmin l m <= z) /\ (fold_left Rmin l m = m \/ In (fold_left Rmin l m) l)).
    { clear. induction l as [|x l IH]; intros m; cbn; [split; [lra|]; split; [intros ? []|left; reflexivity]|].
      destruct (IH (Rmin m x)) as (A & B & C). pose proof (Rmin_l m x). pose proof (Rmin_r m x). split; [lra|]. split.
      - intros z [<-|Hz]; [lra|apply B; exact Hz].
      - destruct C as [C|C]; [|right; right; exact C]. rewrite C. unfold Rmin. destruct (Rle_dec m x); auto. }
    destruct (A l M) as (A1 & A2 & A3). split; [exact A1|]. split.
    - destruct A3 as [A3|A3]; [left; exact A3|]. apply In_nth_error in A3 as (k & Hk). destruct (Hl k _ Hk) as (_ & [E|(h & Hh & Ph & Di)] & _); [left; exact E|right].
      exists h. split; [exact Hh|]. split; [|exact Di]. apply Hq; [exact Hh|]. exists k. split; [apply nth_lt in Hk; exact Hk|exact Ph].
    - intros h x Hh Qh Bl. apply Hq in Qh as (k & Lk & Pk); [|exact Hh]. destruct (nth_error l k) as [z|] eqn:Ek; [|apply nth_error_None in Ek; lia].
      destruct (Hl k z Ek) as (_ & _ & Hd). pose proof (Hd h x Hh Pk Bl). pose proof (A2 z (nth_error_In _ _ Ek)). lra.
  Qed.

  (** the zones an item of base quality [bq] has to avoid *)
  Lemma proximity_exact : forall sts (ce : cell R D) bq, Forall static_hazard sts -> static_cell M sts ce ->
    (forall k, bq = Some k -> (k <= N_QUALITIES)%nat) ->
    exists z, nearest M sts (fun h => ent_universal (h_ent h) = false /\ ~ tolerates bq (h_ent h)) (c_cen ce) z /\
      exists d, hazard_proximity ce bq = Ok d /\ (d = Rmin (fst (c_uni ce)) z \/ d = fst (c_uni ce) /\ z = M).
  Proof.
    intros sts ce bq St [Sc Sr Su Sl Sq] Hq. unfold hazard_proximity. set (n := match bq with Some k => k | None => N_QUALITIES end).
    assert (Hn : (n <= N_QUALITIES)%nat) by (unfold n; destruct bq as [k|]; [apply Hq; reflexivity|lia]).
    exists (fold_left Rmin (firstn n (c_qz ce)) M). split.
    - apply nearest_min with (P := fun k h => exists i, h_ent h = InferiorQualityZone k i).
      + intros k z Hk. apply Sq. rewrite <- Hk. assert (Lk : (k < n)%nat) by (apply nth_lt in Hk; rewrite firstn_length in Hk; lia).
        symmetry. apply nth_firstn. exact Lk.
      + intros h Hh. rewrite firstn_length, Sl, Nat.min_l by exact Hn. rewrite Forall_forall in St. destruct (St h Hh) as (_ & _ & Hz). split.
        * intros (Hu & Ht). destruct (h_ent h) as [a b| | |k i] eqn:Eh; try discriminate. exists k. split; [|exists i; reflexivity].
          unfold n. destruct bq as [b|]; [|exact Hz]. destruct (Nat.lt_ge_cases k b) as [L|L]; [exact L|]. exfalso. apply Ht. exists k, i. split; [reflexivity|exact L].
        * intros (k & Lk & i & Ei). rewrite Ei. split; [reflexivity|]. intros (k' & i' & E' & Hb). injection E' as -> ->. unfold n in Lk. destruct bq; [lia|exact Hb].
    - rewrite prox_fold by (rewrite Sl; exact Hn). eexists. split; [reflexivity|].
      assert (Lm : forall z, In z (firstn n (c_qz ce)) -> z <= M).
      { intros z Hz. apply In_nth_error in Hz as (k & Hk). assert (Lk : (k < n)%nat) by (apply nth_lt in Hk; rewrite firstn_length in Hk; lia).
        rewrite nth_firstn in Hk by exact Lk. apply (Sq k z Hk). }
      destruct (firstn n (c_qz ce)) as [|x l]; cbn [fold_left]; [right; split; reflexivity|left].
      rewrite <- fold_min_split. f_equal. rewrite (Rmin_right M x) by (apply Lm; left; reflexivity). reflexivity.
  Qed.
  (** the same in a history *)
  Lemma grid_proximity : forall bb sts depth n ops c sn g, n <> 0%nat -> proper bb -> Forall static_hazard sts -> valid sts ops -> Forall grid_op ops ->
    engine bb sts depth n ops = Ok (c, sn) -> cd_hpg c = Some g -> forall bq, (forall k, bq = Some k -> (k <= N_QUALITIES)%nat) ->
    every_cell (fun ce : cell R D => exists z, nearest M sts (fun h => ent_universal (h_ent h) = false /\ ~ tolerates bq (h_ent h)) (c_cen ce) z /\
      exists d, hazard_proximity ce bq = Ok d /\ (d = Rmin (fst (c_uni ce)) z \/ d = fst (c_uni ce) /\ z = M)) (hg_grid g).
  Proof.
    intros bb sts depth n ops c sn g Nn Pb St V Go E Hg bq Hq ce Hce. apply proximity_exact; [exact St| |exact Hq].
    eapply (grid_static BSok M); try eassumption. eapply Forall_impl; [|exact St]. intros h Hh. apply Hh.
  Qed.
  Lemma accommodate_panics : forall sts (ce : cell R D) r bq, static_cell M sts ce ->
    could_accommodate ce r bq = Panic <-> exists k, bq = Some k /\ (N_QUALITIES < k)%nat /\ c_rad ce <= r.
  Proof.
    intros sts ce r bq [Sc Sr Su Sl Sq]. unfold could_accommodate. split.
    - intros H. destruct (flt r (c_rad ce)) eqn:El; [discriminate|]. assert (Lr : c_rad ce <= r).
      { apply Rltb_nspec. exact El. }
      unfold hazard_proximity in H. destruct bq as [k|].
      + exists k. split; [reflexivity|]. split; [|exact Lr]. destruct (Nat.lt_ge_cases N_QUALITIES k) as [L|L]; [exact L|]. exfalso.
        rewrite prox_fold in H by (rewrite Sl; exact L). discriminate.
      + rewrite prox_fold in H by (rewrite Sl; lia). discriminate.
    - intros (k & -> & Lk & Lr). assert (El : flt r (c_rad ce) = false).
      { apply Rltb_nspec. exact Lr. }
      rewrite El. unfold hazard_proximity. rewrite prox_panic by (rewrite Sl; exact Lk). reflexivity.
  Qed.
  Lemma grid_accommodate_panics : forall bb sts depth n ops c sn g, n <> 0%nat -> proper bb -> sound_statics sts -> valid sts ops -> Forall grid_op ops ->
    engine bb sts depth n ops = Ok (c, sn) -> cd_hpg c = Some g -> forall r bq,
    every_cell (fun ce : cell R D => could_accommodate ce r bq = Panic <-> exists k, bq = Some k /\ (N_QUALITIES < k)%nat /\ c_rad ce <= r) (hg_grid g).
  Proof.
    intros bb sts depth n ops c sn g Nn Pb St V Go E Hg r bq ce Hce. apply (accommodate_panics sts).
    eapply (grid_static BSok M); try eassumption.
  Qed.

  (** *** the size of the cells *)
  Lemma loop_factor : forall left bb (hs : list (hazard R D)) target cf step prev out, 0 <= step -> gen_loop left bb hs target cf step prev = Ok out ->
    exists cf', gen_attempt bb hs target cf' = Ok out /\ cf' <= cf + INR left * step.
  Proof.
    induction left as [|left IH]; intros bb hs target cf step prev out Hs H; cbn [gen_loop] in H.
    - apply rbind_ok in H as (c & E & H). injection H as <-. exists cf. split; [exact E|]. cbn. lra.
    - apply rbind_ok in H as (c & E & H).
      set (st' := match prev with Some p => if cmp_eqb p (Nat.compare (length c) target) then step else fdiv step f2 | None => fdiv step f2 end) in H.
      assert (Hst : 0 <= st' <= step).
      { assert (Q : 0 <= fdiv step f2 <= step) by (change (0 <= step / 2 <= step); lra). unfold st'. destruct prev as [p|]; [|exact Q]. destruct (cmp_eqb _ _); [lra|exact Q]. }
      pose proof (pos_INR left). rewrite S_INR.
      destruct (Nat.compare (length c) target).
      + injection H as <-. exists cf. split; [exact E|]. nra.
      + apply IH in H as (cf' & E' & L); [|lra]. exists cf'. split; [exact E'|]. assert (L' : cf' <= cf - st' + INR left * st') by exact L. nra.
      + apply IH in H as (cf' & E' & L); [|lra]. exists cf'. split; [exact E'|]. assert (L' : cf' <= cf + st' + INR left * st') by exact L. nra.
  Qed.
  Theorem cells_small : forall bb (sts : list (hazard R D)) n g, proper bb -> sound_statics sts -> hpg_new bb sts n = Ok g ->
    every_cell (fun c => c_rad c <= 7 / 2 * sqrt (r_area bb / INR n)) (hg_grid g).
  Proof.
    intros bb sts n g Pb So E. destruct (hpg_new_ok BSok M bb sts n g Pb So E) as (dim & Fr).
    assert (Rd : hg_rad g <= 7 / 2 * sqrt (r_area bb / INR n)).
    { unfold hpg_new in E. destruct n as [|n]; [discriminate|].
      apply rbind_ok in E as (rects & Eg & E). apply rbind_ok in E as (r0 & Er0 & E). apply rbind_ok in E as (els & _ & E).
      apply rbind_ok in E as (gr & _ & E). injection E as <-. cbn [hg_rad].
      unfold generate in Eg. destruct (flt f0 (r_area bb)); [|discriminate]. apply loop_factor in Eg as (cf & Eg & Lc); [|change (0 <= 1 / INR 10); apply Rle_mult_inv_pos; [lra|apply lt_0_INR; lia]].
      assert (Lc' : cf <= 7 / 2). { eapply Rle_trans; [exact Lc|]. change (1 + INR 25 * (1 / INR 10) <= 7 / 2). rewrite !INR_IZR_INZ. cbn. lra. }
      destruct (gen_attempt_ok M _ _ _ _ _ Eg) as (_ & Hr & _ & _). destruct rects as [|r rects]; [discriminate|]. injection Er0 as <-.
      destruct (proj1 (Hr r) (or_introl eq_refl)) as (i & j & Hi & _ & -> & _). set (d := gen_dim bb (S n) cf) in *.
      assert (Ed : d = sqrt (r_area bb / INR (S n)) * cf) by reflexivity. set (s := sqrt (r_area bb / INR (S n))) in *. pose proof (sqrt_pos (r_area bb / INR (S n))) as Sp. fold s in Sp.
      assert (Dp : 0 < d).
      { pose proof (pos_INR i). destruct Pb as (Px & Py). assert (Wp : 0 < r_width bb) by (change (0 < x_max bb - x_min bb); lra).
        destruct (Rlt_le_dec 0 d) as [L|L]; [exact L|]. exfalso. destruct (Req_dec d 0) as [Z|Z]; [rewrite Z in Hi; unfold Rdiv in Hi; rewrite Rinv_0, Rmult_0_r in Hi; clear -Hi H; lra|].
        assert (L' : 0 < - d) by lra. apply Rinv_0_lt_compat in L'. rewrite Rinv_opp in L'. unfold Rdiv in Hi.
        assert (Hi' : INR i < (x_max bb - x_min bb) * / d) by exact Hi. clear -Hi' L' Px H. nra. }
      assert (Dl : d <= 7 / 2 * s) by (rewrite Ed; clear -Sp Lc'; nra).
      eapply Rle_trans; [|exact Dl]. unfold r_diameter, square. cbn [x_min x_max y_min y_max].
      match goal with |- ?a <= _ => change a with (sqrt ((x_min bb + d * INR i + d - (x_min bb + d * INR i)) * (x_min bb + d * INR i + d - (x_min bb + d * INR i)) + (y_min bb + d * INR j + d - (y_min bb + d * INR j)) * (y_min bb + d * INR j + d - (y_min bb + d * INR j))) / 2) end.
      apply Rle_trans with (sqrt ((2 * d) * (2 * d)) / 2); [|rewrite sqrt_square by lra; lra]. apply Rmult_le_compat_r; [lra|]. apply sqrt_le_1_alt. nra. }
    apply every_all. intros i c Hc. destruct (fr_cells _ _ _ _ _ Fr i c Hc) as (_ & _ & Er & _). rewrite Er. rewrite <- (fr_rad _ _ _ _ _ Fr). exact Rd.
  Qed.
End Grid.

(** *** an item of too high a quality *)
Section Run.
  Variable M : R.
  #[local] Instance NFr : Num R := RNumT Reqb M.
  #[local] Existing Instance RTrig.
  Context {ED : EqD (dtransf R)} {BS : BSearch}.
  Hypothesis BSok : bsearch_ok BS.
  Context {G : Type} {RG : Rng R G} {X : Extra R}.
  Local Open Scope R_scope.
  Local Notation dtransf := (dtransf R).

  Lemma rfilter_panic : forall A (f : A -> res bool) l x, In x l -> f x = Panic -> rfilter f l = Panic.
  Proof.
    induction l as [|y l IH]; intros x Hx Hp; [destruct Hx|]. destruct Hx as [->|Hx]; cbn [rfilter]; [rewrite Hp; reflexivity|].
    destruct (f y); [|reflexivity]. cbn [rbind]. rewrite (IH x Hx Hp). reflexivity.
  Qed.
  Theorem quality_panics : forall items li (l : layout R dtransf) it cfg (r : G) g ce k, Forall (fun x => sound_item M (fst x)) items -> filled items l ->
    cde_hpg (ly_cde l) = Ok (Some g) -> In (Some ce) (g_cells (hg_grid g)) -> c_rad ce <= crad (p_poi (it_shape it)) ->
    it_quality it = Some k -> (N_QUALITIES < k)%nat -> sample_layout li l it cfg r = Panic.
  Proof.
    intros items li l it cfg r g ce k Snd Fl Eg Hc Lr Eq Lk. pose proof (filled_HL M BSok items Snd l g Fl Eg) as H. destruct (HL_hpg M BSok items l H) as (g' & Eg' & Sc).
    rewrite Eg in Eg'. injection Eg' as <-. unfold sample_layout. destruct (p_surr (it_shape it)); [|reflexivity]. cbn [expect rbind].
    destruct (Nat.leb _ _); [|reflexivity]. cbn [rassert rbind]. assert (Eg2 : cde_hpg (ly_cde l) = Ok (Some g)) by exact Eg. rewrite Eg2. cbn [rbind expect].
    unfold hsampler_new. rewrite (rfilter_panic _ _ _ ce); [reflexivity| |].
    - apply in_omap. exists (Some ce). split; [exact Hc|reflexivity].
    - apply (accommodate_panics M _ ce _ _ (Sc ce Hc)). exists k. rewrite Eq. split; [reflexivity|]. split; [exact Lk|exact Lr].
  Qed.

  Definition fussy : item R := It 0 (it_shape (sq_item 8)) RotNone (Some 11%nat).
  Lemma fussy_panics : exists (b : bin R dtransf) inst, bin_from_strip (Rc 0 0 10 10) (Cfg 3 100) 0 = Ok b /\ bpinst_new [(fussy, 1%nat)] [(b, 1%nat)] = Ok inst /\
    good_bin b /\ fine_bins [(b, 1%nat)] /\ forall cfg (r : G) ptr, lbf_bp inst cfg r ptr = Panic.
  Proof.
    destruct (stout_strip M BSok (Rc 0 0 10 10) (Cfg 3 100) 0) as (b & Eb); [split; cbn; lra|discriminate|cbn; lra|cbn; lra|].
    pose proof (strip_fine M _ _ _ _ Eb) as Bf. assert (Gb : good_bin b) by (eapply (strip_good (sym_R M)); exact Eb).
    assert (K : bn_id b = 0%nat /\ bn_cfg b = Cfg 3 100 /\ cde_new (bin_box b) (bin_statics b) (cfg_depth (bn_cfg b)) (cfg_cells (bn_cfg b)) = Ok (bn_cde b)).
    { unfold bin_from_strip in Eb. apply rbind_ok in Eb as (s & _ & Eb). apply bin_new_spec in Eb. tauto. } destruct K as (Ki & Kc & Kn).
    exists b, (BPI [(fussy, 1%nat)] (items_area [(fussy, 1%nat)]) [(b, 1%nat)]). split; [exact Eb|].
    split; [unfold bpinst_new, ids_correct; cbn [map fst]; rewrite Ki; reflexivity|]. split; [exact Gb|]. split; [constructor; [exact Bf|constructor]|].
    intros cfg r ptr.
    assert (Sm : sample_layout (Template 0) (layout_new 0 b) fussy cfg r = Panic).
    { assert (Pr : proper (Rc 0 0 10 10)) by (split; cbn; lra).
      assert (Bx : bin_box b = Rc 0 0 10 10). { unfold bin_box. rewrite (strip_box M _ _ _ _ Eb Pr). unfold inflate_to_square. cbn [x_min x_max y_min y_max].
        assert (Z : flt (10 - 0) (10 - 0) = false) by (apply Rltb_nspec; lra).
        cbv zeta.
        repeat match goal with |- context [if ?b then _ else _] => replace b with false by (symmetry; exact Z) end.
        f_equal; change (0 - 0 = 0) || change (10 + 0 = 10); lra. }
      rewrite Kc in Kn. unfold cde_new in Kn. cbn [cfg_cells cfg_depth] in Kn. apply rbind_ok in Kn as (og & Eo & Kn). apply rbind_ok in Kn as (qt & _ & Kn).
      apply rbind_ok in Eo as (g & Eg & Eo). injection Eo as <-. injection Kn as Kn.
      destruct (strip_poly M _ _ _ _ Eb) as (Ep & Es). destruct (rect_pts _ _ Ep) as (_ & _ & _ & Pp). specialize (Pp Pr).
      assert (So : sound_statics (bin_statics b)) by (eapply Forall_impl; [|exact Bf]; intros h Hh; exact (good_sound _ Hh)).
      assert (Pb : proper (bin_box b)) by (rewrite Bx; exact Pr).
      pose proof (cells_small M BSok _ _ _ _ Pb So Eg) as Cs.
      destruct (free_covered BSok M _ _ _ _ Pb So Eg) as (Cov & _). destruct (Cov (Pt 5 5)) as [(ce & Hce & _)|(h & Hh & _ & Bl)].
      - rewrite Bx. split; cbn; lra.
      - eapply (quality_panics [] (Template 0) (layout_new 0 b) fussy cfg r g ce 11); [constructor| | |exact Hce| |reflexivity|apply Nat.ltb_lt; reflexivity].
        + apply fl_new; [exact Gb|exact Bf|rewrite Kc; discriminate].
        + cbn [layout_new ly_cde]. rewrite <- Kn. unfold cde_hpg. cbn [cd_hpg expect rbind]. unfold hpg_dirty.
          destruct (hpg_new_ok BSok M _ _ _ _ Pb So Eg) as (dim & Fr). rewrite (fr_unc _ _ _ _ _ Fr). reflexivity.
        + eapply Rle_trans; [apply Cs; exact Hce|]. rewrite Bx.
          replace (r_area (Rc 0 0 10 10) / INR 100) with (1 * 1); [rewrite sqrt_square by lra; cbn; lra|].
          change (1 * 1 = (10 - 0) * (10 - 0) / INR 100). rewrite INR_IZR_INZ. cbn. lra.
      - exfalso. rewrite Es in Hh. destruct Hh as [<-|[]].
        assert (In1 : interior (p_pts (a_obj (bn_outer b))) (Pt 5 5)) by (rewrite Pp; apply (rbox_inside 0 0 10 10 0 (Pt 5 5)); cbn; lra).
        unfold blocked in Bl. cbn in Bl. destruct In1 as (N1 & N2). destruct Bl as [Bl|Bl]; [exact (N1 Bl)|congruence]. }
    assert (Ca : bp_candidates (bp_new (BPI [(fussy, 1%nat)] (items_area [(fussy, 1%nat)]) [(b, 1%nat)])) = Ok [(Template 0, layout_new 0 b)]).
    { unfold bp_candidates, templates_with_stock, bp_new. cbn [bp_templates bp_bins bp_layouts bi_bins length seq combine map rmapM snd fst layout_new ly_bin].
      rewrite Ki. reflexivity. }
    unfold lbf_bp. destruct (Nat.ltb 0 (lc_samples cfg)); [|reflexivity]. cbn [rassert rbind item_order bi_items length Nat.ltb Nat.leb seq rfold].
    unfold bp_fill_item. cbn [fst snd]. change (item_of (bi_items (bp_inst (bp_new (BPI [(fussy, 1%nat)] (items_area [(fussy, 1%nat)]) [(b, 1%nat)])))) 0) with (Ok fussy).
    cbn [rbind]. change (nth_error (bp_missing (bp_new (BPI [(fussy, 1%nat)] (items_area [(fussy, 1%nat)]) [(b, 1%nat)]))) 0) with (Some 1%Z).
    cbn [expect rbind]. change (Z.to_nat 1) with 1%nat. cbn [bp_fill].
    change (nth_error (bp_missing (bp_new (BPI [(fussy, 1%nat)] (items_area [(fussy, 1%nat)]) [(b, 1%nat)]))) 0) with (Some 1%Z).
    cbn [expect rbind Z.ltb Z.compare]. rewrite Ca. cbn [rbind find_placement]. rewrite Sm. reflexivity.
  Qed.
End Run.
