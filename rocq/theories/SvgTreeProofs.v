(** The quadtree overlay of a drawing: its cells cover the box of the engine, and tell which
    points are blocked. *)
From Coq Require Import Reals List Bool Lra Psatz Lia.
From Verif Require Import Base Num GeoModel HazardModel QTModel TransfModel HpgModel CdeModel CdeSpec SvgModel
  BaseProofs HazVecProofs QTProofs CdeProofs CdeHistProofs CdeThmProofs
  GeoSpec ParityProofs GeoPrimProofs GeoRectProofs PipProofs QTGeoProofs TouchProofs RegionProofs CdeGeoProofs PlaceSpec.
Import ListNotations.
Local Open Scope R_scope.
#[local] Existing Instance RNum.

Section Tree.
  Context {ED : EqD (dtransf R)} {BS : BSearch}.
  Hypothesis BSok : bsearch_ok BS.
  Local Notation D := (dtransf R).
  Local Notation fact := (fact R D).
  Local Notation qth := (qth R D).
  Local Notation node := (node R D).
  Local Notation bag := (list (rect R) * list (rect R) * list (rect R))%type.
  Variable fs : list fact.
  Hypothesis Sf : sound_facts fs.

  Definition ok_at (f : fact) (bb : rrect) (h : qth) : Prop := gok (f_poly f) (ent_position (f_ent f)) bb h.
  Definition away (f : fact) (bb : rrect) : Prop :=
    (forall p, in_rect bb p -> ~ strictly_blocked f p) /\ (forall p, in_open_rect bb p -> ~ blocked f p).
  Definition seen (bb : rrect) (hs : list qth) : Prop :=
    (forall h, In h hs -> q_act h = true -> exists f, In f fs /\ ok_at f bb h) /\
    (forall f, In f fs -> (exists h, In h hs /\ q_act h = true /\ ok_at f bb h) \/ away f bb).
  Definition spreads (bb : rrect) : Prop := forall f, In f fs -> spread (f_poly f) (ent_position (f_ent f)) bb.
  (** what the three lists of cells say *)
  Definition told (lvl : nat) (bb : rrect) (b : bag) : Prop :=
    let '(eh, ph, nh) := b in
    (forall p, in_rect bb p -> exists r, In r (eh ++ ph ++ nh) /\ in_rect r p) /\
    (forall r, In r eh -> forall p, in_rect r p -> exists f, In f fs /\ strictly_blocked f p) /\
    (forall r, In r nh -> forall f, In f fs -> away f r) /\
    (forall r, In r ph -> (x_max r - x_min r) * 2 ^ lvl = x_max bb - x_min bb /\ (y_max r - y_min r) * 2 ^ lvl = y_max bb - y_min bb) /\
    (forall r, In r (eh ++ ph ++ nh) -> proper r /\ forall p, in_rect r p -> in_rect bb p).
  Definition bag_app (a b : bag) : bag := let '(x, y, z) := a in let '(x', y', z') := b in (x ++ x', y ++ y', z ++ z').
  Lemma bag_assoc : forall a b c, bag_app (bag_app a b) c = bag_app a (bag_app b c).
  Proof. intros [[? ?] ?] [[? ?] ?] [[? ?] ?]. cbn. rewrite !app_assoc. reflexivity. Qed.

  Lemma open_sub : forall r i p, proper r -> (i < 4)%nat -> in_open_rect (q4get (quadrants r) i) p -> in_open_rect r p.
  Proof.
    intros r i p Pr Hi H. destruct (quad_i r i Pr Hi) as (_ & X & Y). destruct Pr as (A & B).
    assert (M1 : x_min r < mid_x r < x_max r) by (unfold mid_x; lra).
    assert (M2 : y_min r < mid_y r < y_max r) by (unfold mid_y; lra).
    destruct H as (HX & HY). split; lra.
  Qed.
  Lemma con_act : forall bb j (h h' : qth), (j < 4)%nat -> con bb j h = Some h' -> q_act h' = q_act h.
  Proof.
    intros bb j h h' Hj H. unfold con in H. destruct (constrict all_alive h (quadrants bb)) as [q|] eqn:E; [|discriminate]. unfold constrict in E. destruct (q_pres h) as [ |ph| ].
    - injection E as <-. destruct j as [|[|[|[|j]]]]; discriminate.
    - apply rbind_ok in E as (a & _ & E). cbv zeta in E. apply rbind_ok in E as (qp & _ & E). repeat (apply rbind_ok in E as (? & _ & E)). injection E as <-.
      assert (K : forall p, qth_new (q_ent h) p (q_act h) = Some h' -> q_act h' = q_act h) by (intros [ |p| ] K; cbn in K; try discriminate; injection K as <-; reflexivity).
      destruct j as [|[|[|[|j]]]]; try lia; cbn [q4get qa qb qc qd] in H; try (eapply K; exact H).
    - injection E as <-. destruct j as [|[|[|[|j]]]]; cbn in H; try lia; injection H as <-; reflexivity.
  Qed.
  Lemma con_entire : forall bb j (h : qth), (j < 4)%nat -> q_pres h = PEntire -> con bb j h = Some h.
  Proof. intros bb j h Hj E. unfold con, constrict. rewrite E. destruct j as [|[|[|[|j]]]]; try reflexivity. Qed.

  Lemma seen_quad : forall bb hs j, proper bb -> spreads bb -> (j < 4)%nat -> seen bb hs -> seen (q4get (quadrants bb) j) (omap (con bb j) hs).
  Proof.
    intros bb hs j Pb Sp Hj (S1 & S2). pose proof (fun f : fact => sound_wf (f_poly f)) as Sw.
    assert (C : forall f h, In f fs -> ok_at f bb h -> match con bb j h with Some h' => ok_at f (q4get (quadrants bb) j) h' | None => away f (q4get (quadrants bb) j) end).
    { intros f h Hf G. destruct (q_pres h) as [ |ph| ] eqn:Eh.
      - destruct G as (_ & G). rewrite Eh in G. destruct G.
      - destruct (con_geo (f_poly f) (ent_position (f_ent f)) (Sw _ (Sf f Hf)) (proj2 (Sf f Hf)) bb h ph Pb (Sp f Hf) G Eh) as (K1 & K2).
        specialize (K1 j Hj). destruct (con bb j h) as [h'|] eqn:Ec; [exact K1|]. split.
        + intros p Ip St. apply occ_strict in St as (St1 & St2). exact (K1 p Ip St1 St2).
        + intros p Ip. destruct (on_border_dec (p_pts (f_poly f)) p) as [B|B].
          * exfalso. destruct (K2 p (proj1 (conj (quad_sub bb j p Pb Hj ltac:(destruct Ip as (A1 & A2); split; lra)) Logic.I)) B) as (k & h' & Hk & Ik & Ek).
            destruct (Nat.eq_dec k j) as [->|Nk]; [congruence|]. exact (quad_disjoint bb k j p Pb Hk Hj Nk Ik Ip).
          * apply not_blocked; [exact B|]. apply K1; [|exact B]. destruct Ip as (A1 & A2); split; lra.
      - rewrite (con_entire _ _ _ Hj Eh). destruct G as (G1 & G2). split; [exact G1|]. rewrite Eh in *. intros p Ip. apply G2. eapply quad_sub; eassumption. }
    split.
    - intros h' Hh' A. apply in_omap in Hh' as (h & Hh & Ec). rewrite (con_act _ _ _ _ Hj Ec) in A. destruct (S1 h Hh A) as (f & Hf & G). exists f. split; [exact Hf|].
      specialize (C f h Hf G). rewrite Ec in C. exact C.
    - intros f Hf. destruct (S2 f Hf) as [(h & Hh & A & G)|(A1 & A2)].
      + specialize (C f h Hf G). destruct (con bb j h) as [h'|] eqn:Ec; [|right; exact C]. left. exists h'. split; [apply in_omap; eauto|]. rewrite (con_act _ _ _ _ Hj Ec). auto.
      + right. split; intros p Ip; [apply A1; eapply quad_sub; eassumption|apply A2; eapply open_sub; eassumption].
  Qed.

  Lemma single_told : forall lvl bb b, proper bb -> match b with ([r], [], []) | ([], [r], []) | ([], [], [r]) => r = bb | _ => False end ->
    (fst (fst b) = [bb] -> forall p, in_rect bb p -> exists f, In f fs /\ strictly_blocked f p) -> (snd b = [bb] -> forall f, In f fs -> away f bb) -> (snd (fst b) = [bb] -> lvl = 0%nat) -> told lvl bb b.
  Proof.
    intros lvl bb [[eh ph] nh] Pb Hs He Hn Hp. cbn [fst snd] in *.
    assert (Hr : forall r, In r (eh ++ ph ++ nh) <-> r = bb).
    { intros r. destruct eh as [|e [|? ?]], ph as [|e' [|? ?]], nh as [|e'' [|? ?]]; try destruct Hs; cbn [app In]; subst; intuition congruence. }
    assert (Me : forall r, In r eh -> r = bb /\ eh = [bb]) by (intros r H; destruct eh as [|e [|? ?]], ph as [|e' [|? ?]], nh as [|e'' [|? ?]]; try destruct Hs; cbn [In] in H; intuition congruence).
    assert (Mp : forall r, In r ph -> r = bb /\ ph = [bb]) by (intros r H; destruct eh as [|e [|? ?]], ph as [|e' [|? ?]], nh as [|e'' [|? ?]]; try destruct Hs; cbn [In] in H; intuition congruence).
    assert (Mn : forall r, In r nh -> r = bb /\ nh = [bb]) by (intros r H; destruct eh as [|e [|? ?]], ph as [|e' [|? ?]], nh as [|e'' [|? ?]]; try destruct Hs; cbn [In] in H; intuition congruence).
    cbn [told]. split; [|split; [|split; [|split]]].
    - intros p Ip. exists bb. split; [apply Hr; reflexivity|exact Ip].
    - intros r H. apply Me in H as (-> & E). apply He. exact E.
    - intros r H. apply Mn in H as (-> & E). apply Hn. exact E.
    - intros r H. apply Mp in H as (-> & E). rewrite (Hp E). cbn [pow]. lra.
    - intros r H. apply Hr in H as ->. auto.
  Qed.
  Lemma leaf_told : forall lvl bb hs acc o, proper bb -> seen bb hs ->
    match o with None => forall h, In h hs -> relevant [] h = false
               | Some h => In h hs /\ relevant [] h = true /\ forall h', In h' hs -> relevant [] h' = true -> (pres_u8 (q_pres h') <= pres_u8 (q_pres h))%nat end ->
    (forall h ph, In h hs -> q_pres h = PPartial ph -> o <> None -> lvl = 0%nat) ->
    exists b, (let '(eh, ph, nh) := acc in
        match o with
        | Some h => match q_pres h with PEntire => Ok (eh ++ [bb], ph, nh) | PPartial _ => Ok (eh, ph ++ [bb], nh) | PNone => Panic end
        | None => Ok (eh, ph, nh ++ [bb])
        end) = Ok (bag_app acc b) /\ told lvl bb b.
  Proof.
    intros lvl bb hs [[eh ph] nh] o Pb (S1 & S2) Ho Hp. destruct o as [h|].
    - destruct Ho as (Ih & Rh & _). unfold relevant in Rh. apply andb_true_iff in Rh as (Ah & _). destruct (S1 h Ih Ah) as (f & Hf & G1 & G2). destruct (q_pres h) as [ |p| ] eqn:Eh; [destruct G2| |].
      + exists ([], [bb], []). cbn [bag_app]. rewrite !app_nil_r. split; [reflexivity|]. apply single_told; [exact Pb|reflexivity|discriminate|discriminate|]. intros _. eapply Hp; [exact Ih|exact Eh|discriminate].
      + exists ([bb], [], []). cbn [bag_app]. rewrite !app_nil_r. split; [reflexivity|]. apply single_told; [exact Pb|reflexivity| |discriminate|discriminate]. intros _ p Ip. exists f. split; [exact Hf|].
        apply occ_strict. apply G2. exact Ip.
    - exists ([], [], [bb]). cbn [bag_app]. rewrite !app_nil_r. split; [reflexivity|]. apply single_told; [exact Pb|reflexivity|discriminate| |discriminate]. intros _ f Hf.
      destruct (S2 f Hf) as [(h & Ih & Ah & _)|A]; [|exact A]. specialize (Ho h Ih). unfold relevant in Ho. rewrite Ah in Ho. discriminate.
  Qed.
  Lemma told_join : forall lvl bb b0 b1 b2 b3, proper bb ->
    told lvl (q4get (quadrants bb) 0) b0 -> told lvl (q4get (quadrants bb) 1) b1 -> told lvl (q4get (quadrants bb) 2) b2 -> told lvl (q4get (quadrants bb) 3) b3 ->
    told (S lvl) bb (bag_app b0 (bag_app b1 (bag_app b2 b3))).
  Proof.
    intros lvl bb b0 b1 b2 b3 Pb T0 T1 T2 T3.
    set (bs := fun i : nat => match i with 0 => b0 | 1 => b1 | 2 => b2 | _ => b3 end%nat).
    assert (T : forall i, (i < 4)%nat -> told lvl (q4get (quadrants bb) i) (bs i)) by (intros [|[|[|[|i]]]] Hi; try lia; assumption). clear T0 T1 T2 T3.
    set (all := bag_app b0 (bag_app b1 (bag_app b2 b3))).
    assert (E1 : forall r, In r (fst (fst all)) <-> exists i, (i < 4)%nat /\ In r (fst (fst (bs i)))).
    { intros r. unfold all. destruct b0 as [[? ?] ?], b1 as [[? ?] ?], b2 as [[? ?] ?], b3 as [[? ?] ?]. cbn [bag_app fst snd]. rewrite !in_app_iff. split.
      - intros [H|[H|[H|H]]]; [exists 0%nat|exists 1%nat|exists 2%nat|exists 3%nat]; cbn; (split; [lia|exact H]).
      - intros ([|[|[|[|i]]]] & Hi & H); try lia; cbn in H; auto. }
    assert (E2 : forall r, In r (snd (fst all)) <-> exists i, (i < 4)%nat /\ In r (snd (fst (bs i)))).
    { intros r. unfold all. destruct b0 as [[? ?] ?], b1 as [[? ?] ?], b2 as [[? ?] ?], b3 as [[? ?] ?]. cbn [bag_app fst snd]. rewrite !in_app_iff. split.
      - intros [H|[H|[H|H]]]; [exists 0%nat|exists 1%nat|exists 2%nat|exists 3%nat]; cbn; (split; [lia|exact H]).
      - intros ([|[|[|[|i]]]] & Hi & H); try lia; cbn in H; auto. }
    assert (E3 : forall r, In r (snd all) <-> exists i, (i < 4)%nat /\ In r (snd (bs i))).
    { intros r. unfold all. destruct b0 as [[? ?] ?], b1 as [[? ?] ?], b2 as [[? ?] ?], b3 as [[? ?] ?]. cbn [bag_app fst snd]. rewrite !in_app_iff. split.
      - intros [H|[H|[H|H]]]; [exists 0%nat|exists 1%nat|exists 2%nat|exists 3%nat]; cbn; (split; [lia|exact H]).
      - intros ([|[|[|[|i]]]] & Hi & H); try lia; cbn in H; auto. }
    clearbody all. destruct all as [[eh ph] nh]. cbn [fst snd] in *. cbn [told].
    assert (EA : forall r, In r (eh ++ ph ++ nh) <-> exists i, (i < 4)%nat /\ let '(a, b, c) := bs i in In r (a ++ b ++ c)).
    { intros r. rewrite !in_app_iff, E1, E2, E3. split.
      - intros [(i & Hi & H)|[(i & Hi & H)|(i & Hi & H)]]; exists i; (split; [exact Hi|]); destruct (bs i) as [[a b] c]; cbn [fst snd] in H; rewrite !in_app_iff; auto.
      - intros (i & Hi & H). destruct (bs i) as [[a b] c] eqn:Eb. rewrite !in_app_iff in H.
        destruct H as [H|[H|H]]; [left|right; left|right; right]; exists i; rewrite Eb; auto. }
    split; [|split; [|split; [|split]]].
    - intros p Ip. destruct (quad_cover bb p Pb Ip) as (i & Hi & Iq). specialize (T i Hi). destruct (bs i) as [[a b] c] eqn:Eb. destruct T as (T & _). destruct (T p Iq) as (r & Hr & Ir).
      exists r. split; [|exact Ir]. apply EA. exists i. rewrite Eb. auto.
    - intros r Hr. apply E1 in Hr as (i & Hi & Hr). specialize (T i Hi). destruct (bs i) as [[a b] c]. apply T. exact Hr.
    - intros r Hr. apply E3 in Hr as (i & Hi & Hr). specialize (T i Hi). destruct (bs i) as [[a b] c]. apply T. exact Hr.
    - intros r Hr. apply E2 in Hr as (i & Hi & Hr). specialize (T i Hi). destruct (bs i) as [[a b] c]. destruct T as (_ & _ & _ & T & _). destruct (T r Hr) as (X & Y).
      destruct (quad_i bb i Pb Hi) as (_ & QX & QY). unfold mid_x, mid_y in *. cbn [pow]. split.
      + replace ((x_max r - x_min r) * (2 * 2 ^ lvl)) with (2 * ((x_max r - x_min r) * 2 ^ lvl)) by ring. rewrite X. lra.
      + replace ((y_max r - y_min r) * (2 * 2 ^ lvl)) with (2 * ((y_max r - y_min r) * 2 ^ lvl)) by ring. rewrite Y. lra.
    - intros r Hr. apply EA in Hr as (i & Hi & Hr). specialize (T i Hi). destruct (bs i) as [[a b] c]. destruct T as (_ & _ & _ & _ & T). destruct (T r Hr) as (A & B).
      split; [exact A|]. intros p Ip. eapply quad_sub; [exact Pb|exact Hi|]. apply B. exact Ip.
  Qed.
  Lemma tree_told : forall lvl bb hs (n : node) acc, proper bb -> spreads bb -> seen bb hs -> repr lvl bb hs n ->
    exists b, tree_data n acc = Ok (bag_app acc b) /\ told lvl bb b.
  Proof.
    induction lvl as [|lvl IH]; intros bb hs [lv b hv ch] acc Pb Sp Se Rp; cbn [repr n_level n_bbox n_haz n_children] in Rp; destruct Rp as (El & <- & V & Rp); subst lv;
      cbn [tree_data]; destruct (strongest_spec hv hs [] V) as (o & -> & Ho); cbn [rbind].
    - subst ch. apply (leaf_told 0%nat b hs acc o Pb Se Ho). auto.
    - destruct (existsb is_partial hs) eqn:Ex.
      + destruct Rp as ([c0 c1 c2 c3] & -> & Rc).
        destruct o as [h|].
        * assert (K : forall i acc, (i < 4)%nat -> exists b', tree_data (q4get (Q4 c0 c1 c2 c3) i) acc = Ok (bag_app acc b') /\ told lvl (q4get (quadrants b) i) b').
          { intros i acc' Hi. eapply IH; [apply quad_i; assumption| |exact (seen_quad b hs i Pb Sp Hi Se)|exact (Rc i Hi)].
            intros f Hf. apply spread_quad; auto. }
          destruct (K 0%nat acc ltac:(lia)) as (b0 & E0 & T0). cbn [q4get qa qb qc qd] in E0. rewrite E0. cbn [rbind].
          destruct (K 1%nat (bag_app acc b0) ltac:(lia)) as (b1 & E1 & T1). cbn [q4get qa qb qc qd] in E1. rewrite E1. cbn [rbind].
          destruct (K 2%nat (bag_app (bag_app acc b0) b1) ltac:(lia)) as (b2 & E2 & T2). cbn [q4get qa qb qc qd] in E2. rewrite E2. cbn [rbind].
          destruct (K 3%nat (bag_app (bag_app (bag_app acc b0) b1) b2) ltac:(lia)) as (b3 & E3 & T3). cbn [q4get qa qb qc qd] in E3. rewrite E3. cbn [rbind].
          exists (bag_app b0 (bag_app b1 (bag_app b2 b3))). split; [rewrite !bag_assoc; reflexivity|]. apply told_join; assumption.
        * apply (leaf_told (S lvl) b hs acc None Pb Se Ho). intros h ph _ _ C. congruence.
      + subst ch. apply (leaf_told (S lvl) b hs acc o Pb Se Ho). intros h ph Ih Eh _. exfalso.
        assert (X : existsb is_partial hs = true) by (apply existsb_exists; exists h; split; [exact Ih|]; unfold is_partial; rewrite Eh; reflexivity). congruence.
  Qed.
End Tree.
