(** Whatever a debug build returns, the release build returns too: the checks never
    change a result.  Holds for every [Num F], every state, reachable or not. *)
From Coq Require Import List Bool Arith ZArith.
From Verif Require Import Base Num GeoModel HazardModel QTModel TransfModel HpgModel CdeModel CdeSpec AssertModel AssertSpec.
Import ListNotations.

(** the debug run [d] either panics or returns what [r] returns *)
Definition refr {A} (d r : res A) : Prop := d = Panic \/ d = r.

Lemma refr_refl : forall {A} (r : res A), refr r r.
Proof. intros; right; reflexivity. Qed.
Lemma refr_panic : forall {A} (r : res A), refr Panic r.
Proof. intros; left; reflexivity. Qed.
Lemma refr_bind : forall {A B} (d r : res A) (f g : A -> res B),
  refr d r -> (forall a, refr (f a) (g a)) -> refr (rbind d f) (rbind r g).
Proof. intros A B d r f g [ -> | -> ] H; [left; reflexivity|]. destruct r; [apply H|left; reflexivity]. Qed.
Lemma refr_assert : forall {A} (b : bool) (d r : res A), refr d r -> refr (rbind (rassert b) (fun _ => d)) r.
Proof. intros A [|] d r H; [exact H|left; reflexivity]. Qed.
Lemma refr_check : forall {A} (c : res unit) (d r : res A), refr d r -> refr (rbind c (fun _ => d)) r.
Proof. intros A [[]|] d r H; [exact H|left; reflexivity]. Qed.
Lemma refr_ok : forall {A} (d r : res A) a, refr d r -> d = Ok a -> r = Ok a.
Proof. intros A d r a [ -> | -> ] E; [discriminate|exact E]. Qed.
Lemma refr_rfold : forall {A B} (f g : A -> B -> res A) l a,
  (forall a b, refr (f a b) (g a b)) -> refr (rfold f l a) (rfold g l a).
Proof.
  intros A B f g l. induction l as [|x l IH]; intros a H; cbn [rfold]; [apply refr_refl|].
  apply refr_bind; [apply H|]. intros a'. apply IH, H.
Qed.
Lemma refr_rany : forall {A} (f g : A -> res bool) l,
  (forall a, refr (f a) (g a)) -> refr (rany f l) (rany g l).
Proof.
  intros A f g l H. induction l as [|x l IH]; cbn [rany]; [apply refr_refl|].
  apply refr_bind; [apply H|]. intros [|]; [apply refr_refl|apply IH].
Qed.
Lemma refr_rmapM : forall {A B} (f g : A -> res B) l,
  (forall a, refr (f a) (g a)) -> refr (rmapM f l) (rmapM g l).
Proof.
  intros A B f g l H. induction l as [|x l IH]; cbn [rmapM]; [apply refr_refl|].
  apply refr_bind; [apply H|]. intros b. apply refr_bind; [apply IH|]. intros; apply refr_refl.
Qed.

Section Ref.
  Context {F : Type} {N : Num F} {D : Type} {ED : EqD D} {BS : BSearch}.
  Local Notation rect := (rect F).
  Local Notation entity := (entity D).
  Local Notation hazard := (hazard F D).
  Local Notation qth := (qth F D).
  Local Notation hvec := (hvec F D).
  Local Notation query := (query F).
  Local Notation node := (node F D).
  Local Notation cde := (cde F D).
  Local Notation cell := (cell F D).

  Lemma node_ind4 : forall P : node -> Prop,
    (forall l b v, P (Node l b v None)) ->
    (forall l b v c0 c1 c2 c3, P c0 -> P c1 -> P c2 -> P c3 -> P (Node l b v (Some (Q4 c0 c1 c2 c3)))) ->
    forall n, P n.
  Proof.
    intros P H0 H1. fix IH 1. intros [l b v [[c0 c1 c2 c3]|]].
    - apply H1; apply IH.
    - apply H0.
  Qed.

  Lemma hv_add_ref : forall (v : hvec) (h : qth), refr (hv_add_d v h) (Ok (hv_add v h)).
  Proof. intros. apply refr_assert, refr_refl. Qed.
  Lemma hv_remove_ref : forall (v : hvec) e, refr (hv_remove_d v e) (Ok (hv_remove v e)).
  Proof. intros. apply refr_assert, refr_refl. Qed.
  Lemma strongest_ref : forall (v : hvec) irr, refr (strongest_d v irr) (strongest v irr).
  Proof. intros. apply refr_assert, refr_assert, refr_refl. Qed.
  Lemma hv_activate_ref : forall (v : hvec) e, refr (hv_activate_d v e) (Ok (hv_activate v e)).
  Proof.
    intros v e. unfold hv_activate_d, hv_activate.
    destruct (position _ (hv_list v)) as [i|]; [|apply refr_refl].
    destruct (vremove i (hv_list v)) as [[h l]|]; [|apply refr_refl].
    apply refr_assert. change (refr (x <- hv_add_d (Hv l (hv_n v)) (Qh (q_ent h) (q_pres h) true) ;; Ok (true, x))
      (x <- Ok (hv_add (Hv l (hv_n v)) (Qh (q_ent h) (q_pres h) true)) ;; Ok (true, x))).
    apply refr_bind; [apply hv_add_ref|intros; apply refr_refl].
  Qed.
  Lemma hv_deactivate_ref : forall (v : hvec) e, refr (hv_deactivate_d v e) (Ok (hv_deactivate v e)).
  Proof.
    intros v e. unfold hv_deactivate_d, hv_deactivate.
    destruct (position _ (hv_list v)) as [i|]; [|apply refr_refl].
    destruct (vremove i (hv_list v)) as [[h l]|]; [|apply refr_refl].
    apply refr_assert. change (refr (x <- hv_add_d (Hv l (hv_n v - 1)%Z) (Qh (q_ent h) (q_pres h) false) ;; Ok (true, x))
      (x <- Ok (hv_add (Hv l (hv_n v - 1)%Z) (Qh (q_ent h) (q_pres h) false)) ;; Ok (true, x))).
    apply refr_bind; [apply hv_add_ref|intros; apply refr_refl].
  Qed.

  Lemma children_ref : forall l (b : rect), refr (generate_children_d l b) (Ok (generate_children (F := F) (D := D) l b)).
  Proof.
    intros [|l] b; cbn [generate_children_d generate_children]; [apply refr_refl|].
    change (refr (qs <- quadrants_d b ;; Ok (Some (q4map (node_new l) qs)))
      (qs <- Ok (quadrants b) ;; Ok (Some (q4map (node_new (F := F) (D := D) l) qs)))).
    apply refr_bind; [apply refr_assert, refr_refl|intros; apply refr_refl].
  Qed.
  Lemma reg_opt_ref : forall (f g : node -> qth -> res node) c o,
    (forall n h, refr (f n h) (g n h)) -> refr (reg_opt f c o) (reg_opt g c o).
  Proof. intros f g c [h|] H; [apply H|apply refr_refl]. Qed.
  Lemma to_children_ref : forall alive (f g : node -> qth -> res node) ch h,
    (forall n h, refr (f n h) (g n h)) -> refr (register_to_children_d alive f ch h) (register_to_children alive g ch h).
  Proof.
    intros alive f g [c|] h H; cbn [register_to_children_d register_to_children]; [|apply refr_refl].
    apply refr_bind; [apply refr_assert, refr_refl|]. intros cs.
    do 4 (apply refr_bind; [apply reg_opt_ref, H|]; intros ?). apply refr_refl.
  Qed.
  Lemma node_register_ref : forall alive fuel (n : node) h, refr (node_register_d alive fuel n h) (node_register alive fuel n h).
  Proof.
    intros alive. induction fuel as [|f IH]; intros [l b v ch] h; cbn [node_register_d node_register].
    - apply refr_bind.
      + destruct (_ && is_partial h)%bool; [|apply refr_refl].
        change (refr (g <- generate_children_d l b ;; rfold (register_to_children_d alive (fun _ _ => Panic)) (hv_list v) g)
          (g <- Ok (generate_children l b) ;; rfold (register_to_children alive (fun _ _ => Panic)) (hv_list v) g)).
        apply refr_bind; [apply children_ref|]. intros g. apply refr_rfold. intros; apply to_children_ref. intros; apply refr_refl.
      + intros c1. apply refr_bind; [apply to_children_ref; intros; apply refr_refl|]. intros c2.
        change (refr (hv' <- hv_add_d v h ;; Ok (Node l b hv' c2)) (hv' <- Ok (hv_add v h) ;; Ok (Node l b hv' c2))).
        apply refr_bind; [apply hv_add_ref|intros; apply refr_refl].
    - apply refr_bind.
      + destruct (_ && is_partial h)%bool; [|apply refr_refl].
        change (refr (g <- generate_children_d l b ;; rfold (register_to_children_d alive (node_register_d alive f)) (hv_list v) g)
          (g <- Ok (generate_children l b) ;; rfold (register_to_children alive (node_register alive f)) (hv_list v) g)).
        apply refr_bind; [apply children_ref|]. intros g. apply refr_rfold. intros; apply to_children_ref. apply IH.
      + intros c1. apply refr_bind; [apply to_children_ref, IH|]. intros c2.
        change (refr (hv' <- hv_add_d v h ;; Ok (Node l b hv' c2)) (hv' <- Ok (hv_add v h) ;; Ok (Node l b hv' c2))).
        apply refr_bind; [apply hv_add_ref|intros; apply refr_refl].
  Qed.

  (** a monadic reading of the three total tree updates *)
  Lemma refr_four : forall (l : nat) (b : rect) (v : hvec) (d0 d1 d2 d3 : res node) (c0 c1 c2 c3 : node),
    refr d0 (Ok c0) -> refr d1 (Ok c1) -> refr d2 (Ok c2) -> refr d3 (Ok c3) ->
    refr (a0 <- d0 ;; a1 <- d1 ;; a2 <- d2 ;; a3 <- d3 ;; Ok (Node l b v (Some (Q4 a0 a1 a2 a3))))
         (Ok (Node l b v (Some (Q4 c0 c1 c2 c3)))).
  Proof.
    intros l b v d0 d1 d2 d3 c0 c1 c2 c3 [ -> | -> ] [ -> | -> ] [ -> | -> ] [ -> | -> ]; cbn [rbind];
      first [right; reflexivity | left; reflexivity].
  Qed.
  Lemma node_deregister_ref : forall (n : node) e, refr (node_deregister_d n e) (Ok (node_deregister n e)).
  Proof.
    intros n e. induction n as [l b v|l b v c0 c1 c2 c3 H0 H1 H2 H3] using node_ind4; cbn [node_deregister_d node_deregister].
    - destruct (hv_remove_ref v e) as [ -> | -> ]; [left; reflexivity|]. cbn [rbind].
      destruct (hv_remove v e) as [[h|] v']; apply refr_refl.
    - destruct (hv_remove_ref v e) as [ -> | -> ]; [left; reflexivity|]. cbn [rbind].
      destruct (hv_remove v e) as [[h|] v']; [|apply refr_refl].
      destruct (_ || _); [apply refr_refl|]. apply refr_four; assumption.
  Qed.
  Lemma node_activate_ref : forall (n : node) e, refr (node_activate_d n e) (Ok (node_activate n e)).
  Proof.
    intros n e. induction n as [l b v|l b v c0 c1 c2 c3 H0 H1 H2 H3] using node_ind4; cbn [node_activate_d node_activate].
    - destruct (hv_activate_ref v e) as [ -> | -> ]; [left; reflexivity|]. cbn [rbind].
      destruct (hv_activate v e) as [[|] v']; apply refr_refl.
    - destruct (hv_activate_ref v e) as [ -> | -> ]; [left; reflexivity|]. cbn [rbind].
      destruct (hv_activate v e) as [[|] v']; [|apply refr_refl]. apply refr_four; assumption.
  Qed.
  Lemma node_deactivate_ref : forall (n : node) e, refr (node_deactivate_d n e) (Ok (node_deactivate n e)).
  Proof.
    intros n e. induction n as [l b v|l b v c0 c1 c2 c3 H0 H1 H2 H3] using node_ind4; cbn [node_deactivate_d node_deactivate].
    - destruct (hv_deactivate_ref v e) as [ -> | -> ]; [left; reflexivity|]. cbn [rbind].
      destruct (hv_deactivate v e) as [[|] v']; apply refr_refl.
    - destruct (hv_deactivate_ref v e) as [ -> | -> ]; [left; reflexivity|]. cbn [rbind].
      destruct (hv_deactivate v e) as [[|] v']; [|apply refr_refl]. apply refr_four; assumption.
  Qed.

  Lemma first_some_ref : forall {A} (l l' : list (res (option A))), Forall2 refr l l' -> refr (first_some l) (first_some l').
  Proof.
    intros A l l' H. induction H as [|x y l l' Hx H IH]; cbn [first_some]; [apply refr_refl|].
    apply refr_bind; [exact Hx|]. intros [a|]; [apply refr_refl|exact IH].
  Qed.
  Lemma tri_loop_ref : forall (l l' : list (res tribool)) acc, Forall2 refr l l' -> refr (tri_loop l acc) (tri_loop l' acc).
  Proof.
    intros l l' acc H. revert acc. induction H as [|x y l l' Hx H IH]; intros acc; cbn [tri_loop]; [apply refr_refl|].
    apply refr_bind; [exact Hx|]. intros [| |]; [apply refr_refl|apply IH|apply IH].
  Qed.
  Lemma node_collides_ref : forall alive (n : node) q irr, refr (node_collides_d alive n q irr) (node_collides alive n q irr).
  Proof.
    intros alive n q irr. induction n as [l b v|l b v c0 c1 c2 c3 H0 H1 H2 H3] using node_ind4; cbn [node_collides_d node_collides];
      (apply refr_bind; [apply strongest_ref|]); intros [s|]; try apply refr_refl;
      destruct (qy_rect q b); try apply refr_refl; destruct (q_pres s); try apply refr_refl.
    apply first_some_ref. do 4 (apply Forall2_cons; [assumption|]). apply Forall2_nil.
  Qed.
  Lemma node_collect_ref : forall alive (n : node) q det, refr (node_collect_d alive n q det) (node_collect alive n q det).
  Proof.
    intros alive n q. induction n as [l b v|l b v c0 c1 c2 c3 H0 H1 H2 H3] using node_ind4; intros det; cbn [node_collect_d node_collect];
      (apply refr_bind; [apply strongest_ref|]); intros [s|]; try apply refr_refl;
      destruct (qy_rect q b); try apply refr_refl; destruct (q_pres s); try apply refr_refl.
    apply refr_bind; [apply H0|]; intros d0. apply refr_bind; [apply H1|]; intros d1.
    apply refr_bind; [apply H2|]; intros d2. apply H3.
  Qed.
  Lemma node_definitely_ref : forall (n : node) qr irr, refr (node_definitely_d n qr irr) (node_definitely n qr irr).
  Proof.
    intros n qr irr. induction n as [l b v|l b v c0 c1 c2 c3 H0 H1 H2 H3] using node_ind4; cbn [node_definitely_d node_definitely];
      (apply refr_bind; [apply strongest_ref|]); intros [s|]; try apply refr_refl;
      destruct (qr b); try apply refr_refl; destruct (q_pres s); try apply refr_refl.
    apply tri_loop_ref. do 4 (apply Forall2_cons; [assumption|]). apply Forall2_nil.
  Qed.

  (** *** the grid *)
  Lemma loop_ref : forall fuel (c : cell) l, refr (register_loop_d fuel c l) (register_loop fuel c l).
  Proof.
    induction fuel as [|f IH]; intros c l; cbn [register_loop_d register_loop];
      destruct (min_index l) as [[i [h bp]]|]; try apply refr_refl.
    destruct (match bp with None => true | Some b => _ end); [|apply refr_refl].
    apply refr_bind; [apply refr_assert, refr_refl|]. intros [c' u]. apply refr_bind; [apply refr_refl|].
    intros [x l']. apply IH.
  Qed.
  Lemma cell_dereg_ref : forall es rem (c : cell), refr (cell_deregister_d es rem c) (cell_deregister es rem c).
  Proof.
    intros es rem c. unfold cell_deregister_d, cell_deregister. destruct (memb _ _ _); [|apply refr_refl].
    apply refr_bind; [apply refr_refl|]. intros l. apply loop_ref.
  Qed.
  Lemma bf_new_ref : forall {T} (g : grid F T) seed, refr (bf_new_d g seed) (bf_new g seed).
  Proof.
    intros T g seed. apply refr_bind; [apply refr_refl|]. intros r. apply refr_bind; [apply refr_refl|]. intros c.
    apply refr_assert, refr_refl.
  Qed.
  Lemma bf_reset_ref : forall {T} b (g : grid F T) seed, refr (bf_reset_d b g seed) (bf_reset b g seed).
  Proof.
    intros T b g seed. apply refr_assert. apply refr_bind; [apply refr_refl|]. intros r. apply refr_bind; [apply refr_refl|]. intros c.
    apply refr_assert, refr_refl.
  Qed.
  Lemma fill_ref : forall fuel (h : hazard) pole g b, refr (fill_loop_d fuel h pole g b) (fill_loop fuel h pole g b).
  Proof.
    induction fuel as [|f IH]; intros h pole g b; cbn [fill_loop_d fill_loop];
      (apply refr_bind; [apply refr_refl|]); intros [[i|] b1]; try apply refr_refl.
    apply refr_bind; [apply refr_refl|]. intros [c|].
    - apply refr_bind; [apply refr_assert, refr_refl|]. intros [c' u]. apply refr_bind; [apply refr_refl|]. intros b2. apply IH.
    - apply refr_bind; [apply refr_refl|]. intros b2. apply IH.
  Qed.
  Lemma register_pole_ref : forall rad (h : hazard) acc pole, refr (hpg_register_pole_d rad h acc pole) (hpg_register_pole rad h acc pole).
  Proof.
    intros rad h [g b] pole. unfold hpg_register_pole_d, hpg_register_pole. apply refr_assert, refr_assert.
    apply refr_bind; [apply bf_reset_ref|]. intros b'. apply refr_bind; [apply fill_ref|]. intros; apply refr_refl.
  Qed.
  Lemma hpg_register_ref : forall (g : hpg F D) (h : hazard), refr (hpg_register_d g h) (hpg_register g h).
  Proof.
    intros g h. unfold hpg_register_d, hpg_register. apply refr_bind; [apply refr_refl|]. intros s.
    apply refr_bind; [apply bf_new_ref|]. intros b. apply refr_bind; [apply refr_rfold; intros; apply register_pole_ref|].
    intros [gr b']. destruct (no_affected_remain h (g_cells gr)) as [ok|]; [|left; reflexivity]. cbn [rbind].
    apply refr_assert, refr_refl.
  Qed.
  Lemma on_cells_ref : forall (f g : cell -> res cell) gr, (forall c, refr (f c) (g c)) -> refr (on_cells f gr) (on_cells g gr).
  Proof.
    intros f g gr H. unfold on_cells. apply refr_bind; [|intros; apply refr_refl]. apply refr_rmapM. intros [c|]; [|apply refr_refl].
    apply refr_bind; [apply H|intros; apply refr_refl].
  Qed.
  Lemma hpg_deregister_ref : forall (g : hpg F D) e rem now, refr (hpg_deregister_d g e rem now) (hpg_deregister g e rem now).
  Proof.
    intros g e rem [|]; [|apply refr_refl]. unfold hpg_deregister_d, hpg_deregister.
    apply refr_bind; [apply on_cells_ref; intros; apply cell_dereg_ref|intros; apply refr_refl].
  Qed.
  Lemma hpg_flush_ref : forall (g : hpg F D) rem, refr (hpg_flush_d g rem) (hpg_flush g rem).
  Proof.
    intros g rem. unfold hpg_flush_d, hpg_flush. destruct (hpg_dirty g); [|apply refr_refl].
    apply refr_bind; [apply on_cells_ref; intros; apply cell_dereg_ref|intros; apply refr_refl].
  Qed.
  Lemma attempt_ref : forall bb (hs : list hazard) t cf, refr (gen_attempt_d bb hs t cf) (gen_attempt bb hs t cf).
  Proof.
    intros bb hs t cf. unfold gen_attempt_d, gen_attempt. destruct (feq _ _); [apply refr_refl|].
    apply refr_rfold. intros acc i. apply refr_rfold. intros acc' j. apply refr_assert, refr_refl.
  Qed.
  Lemma gen_loop_ref : forall left bb (hs : list hazard) t cf st pv, refr (gen_loop_d left bb hs t cf st pv) (gen_loop left bb hs t cf st pv).
  Proof.
    induction left as [|k IH]; intros bb hs t cf st pv; cbn [gen_loop_d gen_loop];
      (apply refr_bind; [apply attempt_ref|]); intros cells; [apply refr_refl|].
    destruct (Nat.compare (length cells) t); [apply refr_refl|apply IH|apply IH].
  Qed.
  Lemma hpg_new_ref : forall bb (sts : list hazard) n, refr (hpg_new_d bb sts n) (hpg_new bb sts n).
  Proof.
    intros bb sts [|n]; [apply refr_refl|]. unfold hpg_new_d, hpg_new.
    apply refr_bind; [|intros; apply refr_refl]. unfold generate_d, generate. destruct (flt _ _); [|apply refr_refl].
    apply gen_loop_ref.
  Qed.

  (** *** the engine *)
  Lemma qt_register_ref : forall alive (n : node) h, refr (qt_register_d alive n h) (qt_register alive n h).
  Proof. intros. apply node_register_ref. Qed.
  Lemma opt_hpg_ref : forall (f g : hpg F D -> res (hpg F D)) o, (forall x, refr (f x) (g x)) -> refr (opt_hpg f o) (opt_hpg g o).
  Proof. intros f g [x|] H; [|apply refr_refl]. apply refr_bind; [apply H|intros; apply refr_refl]. Qed.
  Lemma cde_new_ref : forall bb (sts : list hazard) d n, refr (cde_new_d bb sts d n) (cde_new bb sts d n).
  Proof.
    intros bb sts d n. unfold cde_new_d, cde_new. apply refr_bind.
    - destruct n; [apply refr_refl|]. apply refr_bind; [apply hpg_new_ref|intros; apply refr_refl].
    - intros g. apply refr_bind; [apply refr_rfold; intros; apply qt_register_ref|intros; apply refr_refl].
  Qed.
  (** [Ok]-valued right-hand sides as binds *)
  Lemma refr_bind_ok : forall {A B} (d : res A) a (f : A -> res B) r, refr d (Ok a) -> refr (f a) r -> refr (rbind d f) r.
  Proof. intros A B d a f r [ -> | -> ] H; [left; reflexivity|exact H]. Qed.
  Lemma cde_register_ref : forall (c : cde) h, refr (cde_register_d c h) (cde_register c h).
  Proof.
    intros c h. unfold cde_register_d, cde_register. apply refr_assert. apply refr_bind.
    - destruct (position _ (cd_unc c)) as [i|].
      + apply refr_bind; [apply refr_refl|]. intros [u unc]. eapply refr_bind_ok; [apply node_activate_ref|apply refr_refl].
      + apply refr_bind; [apply qt_register_ref|intros; apply refr_refl].
    - intros [[qt unc] h']. apply refr_bind; [apply opt_hpg_ref; intros; apply hpg_register_ref|]. intros g.
      apply refr_assert, refr_refl.
  Qed.
  Lemma cde_deregister_ref : forall (c : cde) e b, refr (cde_deregister_d c e b) (cde_deregister c e b).
  Proof.
    intros c e b. unfold cde_deregister_d, cde_deregister. apply refr_bind; [apply refr_refl|]. intros i.
    apply refr_bind; [apply refr_refl|]. intros [h dyn].
    destruct b.
    - destruct (node_deregister_ref (cd_qt c) e) as [ -> | -> ]; [left; reflexivity|]. cbn [rbind].
      apply refr_bind; [apply opt_hpg_ref; intros; apply hpg_deregister_ref|]. intros g. apply refr_assert, refr_refl.
    - destruct (node_deactivate_ref (cd_qt c) e) as [ -> | -> ]; [left; reflexivity|]. cbn [rbind].
      apply refr_bind; [apply opt_hpg_ref; intros; apply hpg_deregister_ref|]. intros g. apply refr_assert, refr_refl.
  Qed.
  Lemma dereg_all_ref : forall (l : list hazard) (n : node),
    refr (rfold (fun n h => node_deregister_d n (h_ent h)) l n) (Ok (fold_left (fun n h => node_deregister n (h_ent h)) l n)).
  Proof.
    induction l as [|h l IH]; intros n; cbn [rfold fold_left]; [apply refr_refl|].
    eapply refr_bind_ok; [apply node_deregister_ref|apply IH].
  Qed.
  Lemma cde_commit_ref : forall (c : cde), refr (cde_commit_d c) (cde_commit c).
  Proof.
    intros c. unfold cde_commit_d, cde_commit. eapply refr_bind_ok; [apply dereg_all_ref|].
    apply refr_bind; [apply opt_hpg_ref; intros; apply hpg_flush_ref|intros; apply refr_refl].
  Qed.
  Lemma cde_snapshot_ref : forall (c : cde), refr (cde_snapshot_d c) (cde_snapshot c).
  Proof. intros c. apply refr_bind; [apply cde_commit_ref|intros; apply refr_refl]. Qed.
  Lemma cde_restore_ref : forall (c : cde) s, refr (cde_restore_d c s) (cde_restore c s).
  Proof.
    intros c s. unfold cde_restore_d, cde_restore. apply refr_assert.
    destruct (fold_left restore_split (sn_dyn s) _) as [rem add].
    apply refr_bind.
    { apply refr_rfold. intros [qt dyn] e. unfold restore_remove_d, restore_remove.
      apply refr_bind; [apply refr_refl|]. intros i. apply refr_bind; [apply refr_refl|]. intros [x dyn'].
      eapply refr_bind_ok; [apply node_deregister_ref|apply refr_refl]. }
    intros [qt1 dyn1]. apply refr_bind.
    { apply refr_rfold. intros [[qt dyn] ad] u. unfold restore_unc_d, restore_unc.
      destruct (position _ ad) as [p|].
      - apply refr_bind; [apply refr_refl|]. intros [x ad']. eapply refr_bind_ok; [apply node_activate_ref|apply refr_refl].
      - eapply refr_bind_ok; [apply node_deregister_ref|apply refr_refl]. }
    intros [[qt2 dyn2] add2]. apply refr_bind.
    { apply refr_rfold. intros [qt dyn] h. apply refr_bind; [apply qt_register_ref|intros; apply refr_refl]. }
    intros [qt3 dyn3]. apply refr_bind; [apply refr_refl|]. intros g. apply refr_assert, refr_refl.
  Qed.
  Lemma cde_flush_ref : forall (c : cde), refr (cde_flush_d c) (cde_flush c).
  Proof. intros c. apply refr_bind; [apply opt_hpg_ref; intros; apply hpg_flush_ref|intros; apply refr_refl]. Qed.

  Lemma step_ref : forall s (o : op F D), refr (step_d s o) (step s o).
  Proof.
    intros [c sn] [h|e b| | | |k]; cbn [step_d step].
    - apply refr_bind; [apply cde_register_ref|intros; apply refr_refl].
    - apply refr_bind; [apply cde_deregister_ref|intros; apply refr_refl].
    - apply refr_bind; [apply cde_commit_ref|intros; apply refr_refl].
    - apply refr_bind; [apply cde_flush_ref|intros; apply refr_refl].
    - apply refr_bind; [apply cde_snapshot_ref|intros; apply refr_refl].
    - apply refr_bind; [apply refr_refl|]. intros s. apply refr_bind; [apply cde_restore_ref|intros; apply refr_refl].
  Qed.
  Lemma engine_ref : forall bb (sts : list hazard) d n ops, refr (engine_d bb sts d n ops) (engine bb sts d n ops).
  Proof.
    intros. apply refr_bind; [apply cde_new_ref|]. intros c. apply refr_rfold. intros; apply step_ref.
  Qed.

  (** *** queries *)
  Lemma hit_ref : forall (c : cde) irr q, refr (qt_hit_d c irr q) (qt_hit c irr q).
  Proof. intros. apply refr_bind; [apply node_collides_ref|intros; apply refr_refl]. Qed.
  Lemma poly_ref : forall (c : cde) s irr, refr (poly_collides_d c s irr) (poly_collides c s irr).
  Proof.
    intros c s irr. unfold poly_collides_d, poly_collides. destruct (relation_to _ _); try apply refr_refl.
    apply refr_bind; [|intros; apply refr_refl]. apply refr_rany. intros i. apply refr_bind; [apply refr_refl|].
    intros e. apply hit_ref.
  Qed.
  Lemma surr_ref : forall (c : cde) s t irr, refr (surrogate_collides_d c s t irr) (surrogate_collides c s t irr).
  Proof.
    intros c s t irr. unfold surrogate_collides_d, surrogate_collides. apply refr_bind; [apply refr_refl|]. intros ps.
    apply refr_bind; [apply refr_rany; intros; apply hit_ref|]. intros [|]; [apply refr_refl|]. apply refr_rany. intros; apply hit_ref.
  Qed.
  Lemma both_ref : forall (c : cde) s t buf irr, refr (surrogate_or_poly_collides_d c s t buf irr) (surrogate_or_poly_collides c s t buf irr).
  Proof.
    intros c s t buf irr. unfold surrogate_or_poly_collides_d, surrogate_or_poly_collides. apply refr_bind; [apply refr_refl|].
    intros u. apply refr_bind; [apply surr_ref|]. intros [|]; [apply refr_refl|].
    apply refr_bind; [apply refr_check, refr_refl|]. intros b. apply refr_bind; [apply poly_ref|intros; apply refr_refl].
  Qed.
  Lemma ask_ref : forall (c : cde) q, refr (ask_d c q) (ask c q).
  Proof.
    intros c [s irr|s t irr|s t buf irr|q irr|p e|e irr|k irr]; cbn [ask_d ask].
    - apply refr_bind; [apply poly_ref|intros; apply refr_refl].
    - apply refr_bind; [apply surr_ref|intros; apply refr_refl].
    - apply refr_bind; [apply both_ref|]. intros [b p]; apply refr_refl.
    - apply refr_bind; [apply hit_ref|intros; apply refr_refl].
    - apply refr_refl.
    - unfold edge_definitely_d, edge_definitely. destruct (_ || _); [apply refr_refl|apply node_definitely_ref].
    - unfold circle_definitely_d, circle_definitely. destruct (rp_collides _ _); [apply node_definitely_ref|apply refr_refl].
  Qed.
  Lemma coll_ref : forall (c : cde) q d, refr (qt_collect_d c q d) (qt_collect c q d).
  Proof. intros. apply node_collect_ref. Qed.
  Lemma collect_ref : forall (c : cde) k irr buf, refr (collect_d c k irr buf) (collect c k irr buf).
  Proof.
    intros c [s|s t|q] irr buf; cbn [collect_d collect].
    - apply refr_bind; [apply refr_rfold; intros; apply refr_bind; [apply refr_refl|intros; apply coll_ref]|intros; apply refr_refl].
    - apply refr_bind; [apply refr_refl|]. intros ps. apply refr_bind; [apply refr_rfold; intros; apply coll_ref|]. intros d1.
      apply refr_bind; [apply refr_rfold; intros; apply coll_ref|intros; apply refr_refl].
    - apply refr_bind; [apply coll_ref|intros; apply refr_refl].
  Qed.
  Lemma all_ref :
    (forall bb (sts : list hazard) d n ops s, engine_d bb sts d n ops = Ok s -> engine bb sts d n ops = Ok s) /\
    (forall s (o : op F D) s', step_d s o = Ok s' -> step s o = Ok s') /\
    (forall (c : cde) q t, ask_d c q = Ok t -> ask c q = Ok t) /\
    (forall (c : cde) k irr buf r, collect_d c k irr buf = Ok r -> collect c k irr buf = Ok r).
  Proof.
    repeat split; intros; eapply refr_ok; try eassumption;
      [apply engine_ref|apply step_ref|apply ask_ref|apply collect_ref].
  Qed.
End Ref.
