(** The engine as a set of hazards: invariant of all state-changing operations,
    and the meaning of the queries in terms of the registered hazards only.
    Holds for every [Num F]. *)
From Coq Require Import List Bool Arith ZArith Lia Permutation.
From Verif Require Import Base Num GeoModel HazardModel QTModel TransfModel HpgModel CdeModel
  BaseProofs HazVecProofs QTProofs.
Import ListNotations.

Section CP.
  Context {F : Type} {N : Num F} {D : Type} {ED : EqD D} {BS : BSearch}.
  Hypothesis BSok : bsearch_ok BS.
  Local Notation rect := (rect F).
  Local Notation poly := (poly F).
  Local Notation arc := (arc F).
  Local Notation presence := (presence F).
  Local Notation partial := (partial F).
  Local Notation hazard := (hazard F D).
  Local Notation entity := (entity D).
  Local Notation node := (node F D).
  Local Notation qth := (qth F D).
  Local Notation query := (query F).
  Local Notation cde := (cde F D).
  Local Notation snapshot := (snapshot F D).

  (** *** pointer values do not matter *)
  Definition strip_a (a : arc) : arc := Arc 0 (a_obj a).
  Definition strip_pa (p : partial) : partial := Par (strip_a (pa_shape p)) (pa_edges p).
  Definition strip_p (p : presence) : presence :=
    match p with PPartial q => PPartial (strip_pa q) | x => x end.
  Definition strip (h : qth) : qth := Qh (q_ent h) (strip_p (q_pres h)) (q_act h).

  Lemma rfold_map : forall {A A' B} (g : A -> A') (f : A -> B -> res A) (f' : A' -> B -> res A') l a,
    (forall a x, In x l -> f' (g a) x = rmap g (f a x)) ->
    rfold f' l (g a) = rmap g (rfold f l a).
  Proof.
    intros A A' B g f f' l. induction l as [|x l IH]; intros a H; simpl; [reflexivity|].
    rewrite (H a x (or_introl eq_refl)). destruct (f a x) as [a'|]; simpl; [|reflexivity].
    apply IH. intros; apply H; right; auto.
  Qed.

  Local Notation so := (option_map strip_p).

  Lemma add_edge_q_strip : forall a i e quad p,
    add_edge_q (strip_a a) i e quad (so p) = rmap so (add_edge_q a i e quad p).
  Proof.
    intros a i e quad p. unfold add_edge_q. destruct (re_collides quad e); [|reflexivity].
    destruct p as [[|ph|]|]; try reflexivity. simpl. unfold add_edge_index. simpl.
    destruct (pa_edges ph); reflexivity.
  Qed.

  Lemma add_edge_strip : forall a quads qp i,
    add_edge_to_q_presences (strip_a a) quads (q4map so qp) i =
    rmap (q4map so) (add_edge_to_q_presences a quads qp i).
  Proof.
    intros a quads [p0 p1 p2 p3] i. unfold add_edge_to_q_presences. simpl.
    destruct (get_edge (a_obj a) i) as [e|]; simpl; [|reflexivity].
    rewrite !add_edge_q_strip.
    destruct (add_edge_q a i e (qa quads) p0); simpl; [|reflexivity].
    destruct (add_edge_q a i e (qb quads) p1); simpl; [|reflexivity].
    destruct (add_edge_q a i e (qc quads) p2); simpl; [|reflexivity].
    destruct (add_edge_q a i e (qd quads) p3); simpl; reflexivity.
  Qed.

  Lemma is_entire_strip : forall p, is_entire (so p) = is_entire p.
  Proof. intros [[| |]|]; reflexivity. Qed.
  Lemma is_pnone_strip : forall p, is_pnone (so p) = is_pnone p.
  Proof. intros [[| |]|]; reflexivity. Qed.
  Lemma q4set_map : forall {A B} (f : A -> B) q i x, q4set (q4map f q) i (f x) = q4map f (q4set q i x).
  Proof. intros A B f q [|[|[|i]]] x; reflexivity. Qed.

  Lemma resolve_strip : forall pos s quads qp i,
    resolve_quadrant pos s quads (q4map so qp) i =
    rmap (q4map so) (resolve_quadrant pos s quads qp i).
  Proof.
    intros pos s quads qp i. unfold resolve_quadrant. rewrite q4get_map.
    destruct (q4get qp i) as [p|]; [reflexivity|]. cbn [option_map].
    destruct (quadrant_neighbors i) as [n0 n1].
    rewrite !q4get_map, !is_entire_strip, !is_pnone_strip.
    destruct (is_entire (q4get qp n0)); [cbn [rmap]; f_equal; apply (q4set_map so qp i (Some PEntire))|].
    destruct (is_entire (q4get qp n1)); [cbn [rmap]; f_equal; apply (q4set_map so qp i (Some PEntire))|].
    destruct (is_pnone (q4get qp n0)); [cbn [rmap]; f_equal; apply (q4set_map so qp i (Some PNone))|].
    destruct (is_pnone (q4get qp n1)); [cbn [rmap]; f_equal; apply (q4set_map so qp i (Some PNone))|].
    destruct (pp_collides s _) as [b|]; [|reflexivity]. cbn [rbind rmap]. f_equal.
    destruct pos, b; first [apply (q4set_map so qp i (Some PEntire))|apply (q4set_map so qp i (Some PNone))].
  Qed.

  Lemma qth_new_strip : forall e p b, qth_new e (strip_p p) b = option_map strip (qth_new e p b).
  Proof. intros e [|p|] b; reflexivity. Qed.

  Lemma con_strip : forall bb i h, con bb i (strip h) = option_map strip (con bb i h).
  Proof.
    intros bb i h. unfold con.
    assert (E : constrict all_alive (strip h) (quadrants bb) =
                rmap (q4map (option_map strip)) (constrict all_alive h (quadrants bb))).
    { unfold constrict. destruct h as [en pr ac]. cbn [strip q_ent q_pres q_act].
      destruct pr as [|p|]; [reflexivity| |reflexivity].
      cbn [strip_p]. unfold shape_arc, all_alive. cbn [strip_pa pa_shape rbind strip_a a_obj pa_edges].
      set (s := a_obj (pa_shape p)).
      assert (K : forall X Y, X = rmap (q4map so) Y ->
        (qp <- X ;; p0 <- expect (qa qp) ;; p1 <- expect (qb qp) ;; p2 <- expect (qc qp) ;;
         p3 <- expect (qd qp) ;;
         Ok (Q4 (qth_new en p0 ac) (qth_new en p1 ac) (qth_new en p2 ac) (qth_new en p3 ac))) =
        rmap (q4map (option_map strip))
        (qp <- Y ;; p0 <- expect (qa qp) ;; p1 <- expect (qb qp) ;; p2 <- expect (qc qp) ;;
         p3 <- expect (qd qp) ;;
         Ok (Q4 (qth_new en p0 ac) (qth_new en p1 ac) (qth_new en p2 ac) (qth_new en p3 ac)))).
      { intros X Y ->. destruct Y as [[y0 y1 y2 y3]|]; [|reflexivity]. cbn.
        destruct y0; cbn; [|reflexivity]. destruct y1; cbn; [|reflexivity].
        destruct y2; cbn; [|reflexivity]. destruct y3; cbn; [|reflexivity].
        rewrite !qth_new_strip. reflexivity. }
      apply K. destruct (position _ _) as [k|].
      - cbn [rmap]. f_equal. rewrite <- (q4set_map so _ k (Some (PPartial p))). reflexivity.
      - pose proof (rfold_map (q4map so) (add_edge_to_q_presences (pa_shape p) (quadrants bb))
           (add_edge_to_q_presences (strip_a (pa_shape p)) (quadrants bb))
           (match pa_edges p with REAll => edge_indices s | RESome l => l end)
           (Q4 None None None None)) as R1.
        specialize (R1 ltac:(intros; apply add_edge_strip)).
        unfold strip_a in R1. fold s in R1.
        match type of R1 with ?l = _ => match goal with |- rbind ?l' _ = _ => change l' with l end end.
        rewrite R1.
        match goal with |- rbind (rmap _ ?x) _ = _ => destruct x as [qp|] end; [|reflexivity].
        cbn [rmap rbind]. apply rfold_map. intros; apply resolve_strip. }
    rewrite E. destruct (constrict all_alive h (quadrants bb)) as [q|]; [|reflexivity].
    cbn [rmap]. apply q4get_map.
  Qed.

  Lemma pcol_strip : forall q p, pcol q (strip_pa p) = pcol q p.
  Proof. reflexivity. Qed.

  Lemma hits_strip : forall q lvl bb h, hits lvl bb q (strip h) = hits lvl bb q h.
  Proof.
    intros q. induction lvl as [|l IH]; intros bb h; cbn [hits].
    - destruct h as [e [|p|] b]; reflexivity.
    - destruct h as [e [|p|] b]; try reflexivity. cbn [q_pres strip strip_p]. f_equal.
      apply existsb_ext_in. intros i _.
      change (Qh e (PPartial (strip_pa p)) b) with (strip (Qh e (PPartial p) b)).
      rewrite con_strip. destruct (con bb i _) as [h'|]; [|reflexivity]. cbn [option_map]. apply IH.
  Qed.
  Lemma tri_strip : forall qr lvl bb h, tri lvl bb qr (strip h) = tri lvl bb qr h.
  Proof.
    intros qr. induction lvl as [|l IH]; intros bb h; cbn [tri].
    - destruct h as [e [|p|] b]; reflexivity.
    - destruct h as [e [|p|] b]; try reflexivity. cbn [q_pres strip strip_p].
      destruct (qr bb); [|reflexivity]. f_equal. apply map_ext. intros i.
      change (Qh e (PPartial (strip_pa p)) b) with (strip (Qh e (PPartial p) b)).
      rewrite con_strip. destruct (con bb i _) as [h'|]; [|reflexivity]. cbn [option_map]. apply IH.
  Qed.

  (** *** what a hazard contributes to a query *)
  (** everything observable of a hazard *)
  Definition obs : Type := (entity * poly * bool)%type.
  Definition obs_of (h : hazard) : obs := (h_ent h, a_obj (h_shape h), h_active h).
  Definition o_ent (o : obs) : entity := fst (fst o).
  Definition o_poly (o : obs) : poly := snd (fst o).
  Definition o_act (o : obs) : bool := snd o.
  Definition qth_of_obs (o : obs) : qth := Qh (o_ent o) (PPartial (Par (Arc 0 (o_poly o)) REAll)) true.
  Lemma qth_obs_strip : forall h, strip (qth_of_hazard h) = qth_of_obs (obs_of h).
  Proof. intros [e a b]. reflexivity. Qed.

  Variable lvl : nat.
  Variable bb : rect.

  Definition ohits (q : query) (o : obs) : bool := hits lvl bb q (qth_of_obs o).
  Definition otri (qr : rect -> bool) (o : obs) : tribool := tri lvl bb qr (qth_of_obs o).
  Lemma hits_obs : forall q h, hits lvl bb q (qth_of_hazard h) = ohits q (obs_of h).
  Proof. intros. unfold ohits. rewrite <- qth_obs_strip, hits_strip. reflexivity. Qed.
  Lemma tri_obs : forall q h, tri lvl bb q (qth_of_hazard h) = otri q (obs_of h).
  Proof. intros. unfold otri. rewrite <- qth_obs_strip, tri_strip. reflexivity. Qed.

  (** *** the invariant *)
  Definition inactive (h : qth) : qth := with_act false h.
  Definition qts (c : cde) : list qth :=
    map qth_of_hazard (cd_static c ++ cd_dyn c) ++
    map (fun h => inactive (qth_of_hazard h)) (cd_unc c).
  Definition stored (c : cde) : list hazard := cd_static c ++ cd_dyn c ++ cd_unc c.
  Definition wf_hazard (h : hazard) : Prop := wf_poly (a_obj (h_shape h)).
  Record inv (c : cde) : Prop := {
    inv_bbox : cd_bbox c = bb;
    inv_repr : repr lvl bb (qts c) (cd_qt c);
    inv_wf : Forall wf_hazard (stored c);
    inv_nodup : NoDup (map (@h_ent F D) (stored c))
  }.

  Lemma qts_ents : forall c, map q_ent (qts c) = map (@h_ent F D) (stored c).
  Proof.
    intros c. unfold qts, stored. rewrite app_assoc, !map_app, !map_map. reflexivity.
  Qed.
  Lemma owned_in : forall (l : list hazard) (h : hazard), In h l -> owned l (a_ptr (h_shape h)) = true.
  Proof.
    intros l h H. unfold owned. apply existsb_exists. exists h. split; [exact H|apply Nat.eqb_refl].
  Qed.
  Lemma owned_incl : forall (l l' : list hazard) p, incl l l' -> owned l p = true -> owned l' p = true.
  Proof.
    intros l l' p I H. unfold owned in *. apply existsb_exists in H as (x & Hx & E).
    apply existsb_exists. exists x. auto.
  Qed.
  Lemma wf_qth_hazard : forall al (h : hazard), wf_hazard h -> al (a_ptr (h_shape h)) = true ->
    wf_qth al (qth_of_hazard h).
  Proof. intros al h W A. unfold wf_qth. simpl. repeat split; assumption. Qed.
  Lemma wf_qts : forall al c, Forall wf_hazard (stored c) ->
    (forall h, In h (stored c) -> al (a_ptr (h_shape h)) = true) ->
    Forall (wf_qth al) (qts c).
  Proof.
    intros al c W A. rewrite Forall_forall in *. intros q Hq. unfold qts in Hq.
    apply in_app_or in Hq as [Hq|Hq]; apply in_map_iff in Hq as (h & <- & Hh).
    - assert (In h (stored c)).
      { unfold stored. rewrite app_assoc. apply in_or_app. left; assumption. }
      apply wf_qth_hazard; auto.
    - assert (In h (stored c)).
      { unfold stored. rewrite app_assoc. apply in_or_app. right; assumption. }
      exact (wf_qth_hazard al h (W h H) (A h H)).
  Qed.
  Lemma inv_wf_qts : forall c, inv c -> Forall (wf_qth (cd_alive c)) (qts c).
  Proof.
    intros c I. apply wf_qts; [apply I|]. intros h Hh. apply owned_in; exact Hh.
  Qed.
  Lemma inv_nodup_qts : forall c, inv c -> NoDup (map q_ent (qts c)).
  Proof. intros c I. rewrite qts_ents. apply I. Qed.

  (** *** queries *)
  Definition rel (irr : list entity) (o : obs) : bool := negb (memb ent_eqb (o_ent o) irr).

  Lemma relevant_hazard : forall irr h, relevant irr (qth_of_hazard h) = rel irr (obs_of h).
  Proof. reflexivity. Qed.
  Lemma relevant_inactive : forall irr h, relevant irr (inactive h) = false.
  Proof. reflexivity. Qed.

  Definition registered (c : cde) : list obs := map obs_of (all_hazards c).

  Lemma existsb_map' : forall {A B} (f : A -> B) (g : B -> bool) l,
    existsb g (map f l) = existsb (fun x => g (f x)) l.
  Proof. induction l as [|x l IH]; simpl; [reflexivity|]. rewrite IH. reflexivity. Qed.

  Lemma qts_existsb : forall irr (f : qth -> bool) (g : obs -> bool) c,
    (forall h, f (qth_of_hazard h) = g (obs_of h)) ->
    existsb (fun h => relevant irr h && f h) (qts c) =
    existsb (fun o => rel irr o && g o) (registered c).
  Proof.
    intros irr f g c H. unfold qts, registered, all_hazards.
    rewrite existsb_app, !existsb_map'.
    replace (existsb _ (cd_unc c)) with false.
    - rewrite orb_false_r. apply existsb_ext_in. intros h _.
      rewrite relevant_hazard, H. reflexivity.
    - symmetry. apply existsb_false. intros h _. reflexivity.
  Qed.

  Theorem collides_spec : forall c q irr, inv c ->
    exists o, node_collides (cd_alive c) (cd_qt c) q irr = Ok o /\
      is_some o = existsb (fun o => rel irr o && ohits q o) (registered c) /\
      (forall e, o = Some e -> exists h, In h (all_hazards c) /\ h_ent h = e /\ ~ In e irr /\
                    ohits q (obs_of h) = true).
  Proof.
    intros c q irr I.
    destruct (node_collides_spec (cd_alive c) q irr lvl bb (qts c) (cd_qt c)
                (inv_repr c I) (inv_wf_qts c I)) as (o & E & S1 & S2).
    exists o. split; [exact E|]. split.
    - rewrite S1. apply qts_existsb. apply hits_obs.
    - intros e He. destruct (S2 e He) as (h & Hin & Ee & Rh & Hh).
      unfold qts in Hin. apply in_app_or in Hin as [Hin|Hin];
        apply in_map_iff in Hin as (z & <- & Hz).
      + exists z. split; [exact Hz|]. split; [exact Ee|]. split.
        * apply relevant_in in Rh as (_ & Rh). rewrite <- Ee. exact Rh.
        * rewrite <- hits_obs. exact Hh.
      + rewrite relevant_inactive in Rh. discriminate.
  Qed.

  Lemma qt_hit_spec : forall c q irr, inv c ->
    qt_hit c irr q = Ok (existsb (fun o => rel irr o && ohits q o) (registered c)).
  Proof.
    intros c q irr I. unfold qt_hit. destruct (collides_spec c q irr I) as (o & -> & S & _).
    cbn [rbind]. rewrite S. reflexivity.
  Qed.

  Lemma filter_qts : forall irr c,
    filter (relevant irr) (qts c) =
    map qth_of_hazard (filter (fun h => rel irr (obs_of h)) (all_hazards c)).
  Proof.
    intros irr c. unfold qts, all_hazards. rewrite filter_app.
    replace (filter (relevant irr) (map _ (cd_unc c))) with (@nil qth).
    - rewrite app_nil_r. induction (cd_static c ++ cd_dyn c) as [|h l IH]; [reflexivity|].
      cbn [map filter]. rewrite relevant_hazard. destruct (rel irr (obs_of h)); cbn [map]; rewrite IH; reflexivity.
    - induction (cd_unc c) as [|h l IH]; [reflexivity|]. cbn [map filter]. rewrite relevant_inactive. exact IH.
  Qed.

  Lemma definitely_spec : forall c qr irr, inv c ->
    node_definitely (cd_qt c) qr irr =
    Ok (tri_all (map (otri qr) (filter (rel irr) (registered c)))).
  Proof.
    intros c qr irr I.
    rewrite (node_definitely_spec (cd_alive c) qr irr lvl bb (qts c) (cd_qt c)
              (inv_repr c I) (inv_wf_qts c I)).
    rewrite filter_qts, map_map. unfold registered. f_equal. f_equal.
    induction (all_hazards c) as [|h l IH]; [reflexivity|]. cbn [map filter].
    destruct (rel irr (obs_of h)); cbn [map]; rewrite IH; [rewrite tri_obs|]; reflexivity.
  Qed.

  Lemma nodup_map_inj : forall {A B} (f : A -> B) l x y, NoDup (map f l) ->
    In x l -> In y l -> f x = f y -> x = y.
  Proof.
    intros A B f l x y. induction l as [|z l IH]; intros ND Hx Hy E; [destruct Hx|].
    simpl in ND. inversion ND as [|? ? Nz ND']; subst.
    destruct Hx as [->|Hx], Hy as [->|Hy]; auto.
    - exfalso. apply Nz. rewrite E. apply in_map; assumption.
    - exfalso. apply Nz. rewrite <- E. apply in_map; assumption.
  Qed.

  Lemma definitely_with_spec : forall c qr e, inv c ->
    node_definitely_with (cd_qt c) qr e =
    Ok (match find (fun o => ent_eqb (o_ent o) e) (registered c) with
        | Some o => otri qr o
        | None => TFalse end).
  Proof.
    intros c qr e I.
    rewrite (node_definitely_with_spec (cd_alive c) qr e lvl bb (qts c) (cd_qt c)
              (inv_repr c I) (inv_wf_qts c I) (inv_nodup_qts c I)).
    f_equal. unfold qts, registered, all_hazards.
    induction (cd_static c ++ cd_dyn c) as [|h l IH]; cbn [map app].
    - cbn [find]. induction (cd_unc c) as [|h l IH]; [reflexivity|].
      cbn [map find]. cbn [inactive with_act q_act]. rewrite andb_false_r. exact IH.
    - cbn [find]. cbn [qth_of_hazard q_ent q_act].
      change (o_ent (obs_of h)) with (h_ent h). rewrite andb_true_r.
      destruct (ent_eqb (h_ent h) e); [apply (tri_obs qr h)|exact IH].
  Qed.

  (** containment test of one hazard *)
  Definition ocontained (s : poly) (o : obs) : bool :=
    let out := fun incl => match ent_position (o_ent o) with
                           | Interior => incl | Exterior => negb incl end in
    match almost_relation_to (p_bbox (o_poly o)) (p_bbox s) with
    | Surrounding =>
        match otri (fun r => rp_collides r (ccen (p_poi s))) o with
        | TTrue => true
        | TFalse => false
        | TIndet => out (pp_pure (o_poly o) (ccen (p_poi s)))
        end
    | Enclosed => out (pp_pure s (ccen (p_poi (o_poly o))))
    | Disjoint | Intersecting =>
        match ent_position (o_ent o) with Interior => false | Exterior => true end
    end.

  Lemma inv_wf_all : forall c h, inv c -> In h (all_hazards c) -> wf_hazard h.
  Proof.
    intros c h I H. destruct I as [_ _ W _]. rewrite Forall_forall in W. apply W.
    unfold stored. rewrite app_assoc. apply in_or_app. left; exact H.
  Qed.
  Lemma inv_nodup_all : forall c, inv c -> NoDup (map (@h_ent F D) (all_hazards c)).
  Proof.
    intros c I. destruct I as [_ _ _ ND]. unfold stored in ND. rewrite app_assoc, map_app in ND.
    unfold all_hazards. revert ND. generalize (map (@h_ent F D) (cd_static c ++ cd_dyn c)).
    generalize (map (@h_ent F D) (cd_unc c)). intros b l. induction l as [|x l IH]; simpl; intros H.
    - constructor.
    - inversion H; subst. constructor; auto. intros X. apply H2, in_or_app; auto.
  Qed.

  Lemma find_registered : forall c h, inv c -> In h (all_hazards c) ->
    find (fun o => ent_eqb (o_ent o) (h_ent h)) (registered c) = Some (obs_of h).
  Proof.
    intros c h I H. pose proof (inv_nodup_all c I) as ND. unfold registered.
    induction (all_hazards c) as [|x l IH]; [destruct H|]. cbn [map find].
    simpl in ND. inversion ND as [|? ? Nx ND']; subst.
    change (o_ent (obs_of x)) with (h_ent x). destruct (ent_eqb (h_ent x) (h_ent h)) eqn:E.
    - apply ent_eqb_ok in E. destruct H as [->|H]; [reflexivity|].
      exfalso. apply Nx. rewrite E. apply in_map; exact H.
    - destruct H as [->|H]; [rewrite ent_eqb_refl in E; discriminate|]. apply IH; auto.
  Qed.

  Lemma are_contained_spec : forall c s h, inv c -> wf_poly s -> In h (all_hazards c) ->
    are_contained c s h = Ok (ocontained s (obs_of h)).
  Proof.
    intros c s h I W H. unfold are_contained, ocontained.
    pose proof (inv_wf_all c h I H) as Wh.
    change (o_ent (obs_of h)) with (h_ent h). change (o_poly (obs_of h)) with (a_obj (h_shape h)).
    destruct (almost_relation_to _ _); try reflexivity.
    - rewrite (pp_collides_ok s _ W). reflexivity.
    - rewrite (definitely_with_spec c _ _ I), (find_registered c h I H). cbn [rbind].
      destruct (otri _ _); try reflexivity. rewrite (pp_collides_ok _ _ Wh). reflexivity.
  Qed.

  (** the verdict of the two phases, as functions of the registered hazards *)
  Definition oedge (s : poly) (irr : list entity) (os : list obs) : bool :=
    existsb (fun i => existsb (fun o => rel irr o && ohits (edge_query (edge_at s i)) o) os)
      (edge_indices s).
  Definition ocontain (s : poly) (irr : list entity) (os : list obs) : bool :=
    existsb (fun o => o_act o && rel irr o && ocontained s o) os.
  Definition opoly (s : poly) (irr : list entity) (os : list obs) : bool :=
    match relation_to bb (p_bbox s) with
    | Surrounding => oedge s irr os || ocontain s irr os
    | _ => true
    end.

  Lemma by_edge_spec : forall c s irr, inv c -> wf_poly s ->
    by_edge_intersection c s irr = Ok (oedge s irr (registered c)).
  Proof.
    intros c s irr I W. unfold by_edge_intersection, oedge. apply rany_ok.
    intros i Hi. apply in_seq in Hi. rewrite (get_edge_at s i W) by lia. cbn [rbind].
    apply qt_hit_spec; exact I.
  Qed.
  Lemma existsb_filter : forall {A} (f g : A -> bool) l,
    existsb g (filter f l) = existsb (fun x => f x && g x) l.
  Proof.
    induction l as [|x l IH]; simpl; [reflexivity|]. destruct (f x); simpl; rewrite IH; reflexivity.
  Qed.
  Lemma by_containment_spec : forall c s irr, inv c -> wf_poly s ->
    by_containment c s irr = Ok (ocontain s irr (registered c)).
  Proof.
    intros c s irr I W. unfold by_containment, ocontain.
    rewrite (rany_ok _ (fun h => ocontained s (obs_of h))).
    - rewrite existsb_filter. unfold registered. rewrite existsb_map'. reflexivity.
    - intros h Hh. apply filter_In in Hh as (Hh & _). apply are_contained_spec; assumption.
  Qed.
  Theorem poly_collides_spec : forall c s irr, inv c -> wf_poly s ->
    poly_collides c s irr = Ok (opoly s irr (registered c)).
  Proof.
    intros c s irr I W. unfold poly_collides, opoly. rewrite (inv_bbox c I).
    destruct (relation_to bb (p_bbox s)); try reflexivity.
    rewrite (by_edge_spec c s irr I W). cbn [rbind].
    destruct (oedge s irr (registered c)); [reflexivity|]. cbn [orb].
    apply by_containment_spec; assumption.
  Qed.

  Definition osurr (s : surrogate F) (t : transf F) (irr : list entity) (os : list obs) : bool :=
    existsb (fun p => existsb (fun o => rel irr o && ohits (circle_query (tr_circle t p)) o) os)
      (firstn (s_nff s) (s_poles s)) ||
    existsb (fun p => existsb (fun o => rel irr o && ohits (edge_query (tr_edge t p)) o) os)
      (s_piers s).
  Definition wf_surr (s : surrogate F) : Prop := s_nff s <= length (s_poles s).
  Theorem surrogate_collides_spec : forall c s t irr, inv c -> wf_surr s ->
    surrogate_collides c s t irr = Ok (osurr s t irr (registered c)).
  Proof.
    intros c s t irr I W. unfold surrogate_collides, osurr, ff_poles.
    apply Nat.leb_le in W. rewrite W. cbn [rbind].
    rewrite (rany_ok _ (fun p => existsb (fun o => rel irr o && ohits (circle_query (tr_circle t p)) o) (registered c)))
      by (intros; apply qt_hit_spec; exact I).
    cbn [rbind]. destruct (existsb _ (firstn _ _)); [reflexivity|]. cbn [orb].
    apply rany_ok. intros; apply qt_hit_spec; exact I.
  Qed.

  (** *** collecting *)
  Definition ohit_by (q : query) (os : list obs) (e : entity) : Prop :=
    exists o, In o os /\ o_ent o = e /\ ohits q o = true.
  Lemma qt_collect_spec : forall c q det, inv c ->
    collect_post det (ohit_by q (registered c))
      (exists o, In o (registered c) /\ ~ In (o_ent o) det /\ ohits q o = true)
      (qt_collect c q det).
  Proof.
    intros c q det I. unfold qt_collect.
    eapply collect_weaken;
      [apply (node_collect_spec (cd_alive c) q lvl bb (qts c) (cd_qt c) (inv_repr c I) (inv_wf_qts c I) det)
      | |intros (o & Ho & Nd & Hh)].
    - intros e _ (h & Hin & Ee & Ha & Hh). unfold qts in Hin.
      apply in_app_or in Hin as [Hin|Hin]; apply in_map_iff in Hin as (z & <- & Hz).
      + exists (obs_of z). split; [apply in_map; exact Hz|]. split; [exact Ee|].
        rewrite <- hits_obs. exact Hh.
      + discriminate.
    - unfold registered in Ho. apply in_map_iff in Ho as (z & <- & Hz).
      exists (qth_of_hazard z). split; [|split].
      + unfold qts. apply in_or_app. left. apply in_map; exact Hz.
      + apply relevant_in. split; [reflexivity|exact Nd].
      + rewrite hits_obs. exact Hh.
  Qed.
End CP.
