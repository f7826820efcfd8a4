(** The engine commutes with a change of numbers that preserves the outcomes of the
    geometric tests it makes. *)
From Coq Require Import List Bool Arith ZArith Lia.
From Verif Require Import Base BaseProofs Num FloatModel GeoModel HazardModel QTModel TransfModel HpgModel CdeModel CdeSpec FloatSpec.
Import ListNotations.

(** *** lists *)
Lemma position_im {A B} (g : A -> B) f f' l : (forall x, In x l -> f' (g x) = f x) -> position f' (map g l) = position f l.
Proof. induction l as [|x l IH]; cbn; intros H; [reflexivity|]. rewrite H by auto. destruct (f x); [reflexivity|]. rewrite IH by auto. reflexivity. Qed.
Lemma vremove_im {A B} (g : A -> B) l : forall i, vremove i (map g l) = option_map (fun p => (g (fst p), map g (snd p))) (vremove i l).
Proof. induction l as [|x l IH]; intros [|i]; cbn; try reflexivity. rewrite IH. destruct (vremove i l) as [[y r]|]; reflexivity. Qed.
Lemma vset_im {A B} (g : A -> B) l : forall i x, vset i (g x) (map g l) = map g (vset i x l).
Proof. induction l as [|y l IH]; intros [|i] x; cbn; try reflexivity. now rewrite IH. Qed.
Lemma removelast_im {A B} (g : A -> B) l : removelast (map g l) = map g (removelast l).
Proof. induction l as [|x [|y l] IH]; cbn in *; try reflexivity. now rewrite IH. Qed.
Lemma swap_remove_im {A B} (g : A -> B) i l : swap_remove i (map g l) = option_map (fun p => (g (fst p), map g (snd p))) (swap_remove i l).
Proof.
  unfold swap_remove. rewrite nth_error_map. destruct (nth_error l i) as [x|]; cbn; [|reflexivity].
  rewrite <- map_rev. destruct (rev l) as [|y r]; cbn; [reflexivity|]. rewrite removelast_im, map_length.
  destruct (Nat.eqb i _); [reflexivity|]. now rewrite vset_im.
Qed.
Lemma find_im {A B} (g : A -> B) f f' l : (forall x, In x l -> f' (g x) = f x) -> find f' (map g l) = option_map g (find f l).
Proof. induction l as [|x l IH]; cbn; intros H; [reflexivity|]. rewrite H by auto. destruct (f x); [reflexivity|]. apply IH. auto. Qed.
Lemma filter_im {A B} (g : A -> B) f f' l : (forall x, In x l -> f' (g x) = f x) -> filter f' (map g l) = map g (filter f l).
Proof. induction l as [|x l IH]; cbn; intros H; [reflexivity|]. rewrite H by auto. destruct (f x); cbn; rewrite IH by auto; reflexivity. Qed.
Lemma existsb_im {A B} (g : A -> B) f f' l : (forall x, In x l -> f' (g x) = f x) -> existsb f' (map g l) = existsb f l.
Proof. induction l as [|x l IH]; cbn; intros H; [reflexivity|]. rewrite H by auto. rewrite IH by auto. reflexivity. Qed.
Lemma forallb_im {A B} (g : A -> B) f f' l : (forall x, In x l -> f' (g x) = f x) -> forallb f' (map g l) = forallb f l.
Proof. induction l as [|x l IH]; cbn; intros H; [reflexivity|]. rewrite H by auto. rewrite IH by auto. reflexivity. Qed.
Lemma rany_im {A B} (g : A -> B) f f' l : (forall x, In x l -> f' (g x) = f x) -> rany f' (map g l) = rany f l.
Proof. induction l as [|x l IH]; cbn; intros H; [reflexivity|]. rewrite H by auto. destruct (f x) as [[|]|]; cbn; auto. Qed.
Lemma rany_ext {A} f f' (l : list A) : (forall x, In x l -> f' x = f x) -> rany f' l = rany f l.
Proof. induction l as [|x l IH]; cbn; intros H; [reflexivity|]. rewrite H by auto. destruct (f x) as [[|]|]; cbn; auto. Qed.
Lemma rfind_im {A B} (g : A -> B) f f' l : (forall x, In x l -> f' (g x) = f x) -> rfind f' (map g l) = rmap (option_map g) (rfind f l).
Proof. induction l as [|x l IH]; cbn; intros H; [reflexivity|]. rewrite H by auto. destruct (f x) as [[|]|]; cbn; auto. Qed.
(** a loop with an invariant *)
Lemma rfold_sim {A A' B B'} (g : A -> A') (k : B -> B') (I : A -> Prop) f f' l : forall a, I a ->
  (forall a x, I a -> In x l -> f' (g a) (k x) = rmap g (f a x) /\ forall a', f a x = Ok a' -> I a') ->
  rfold f' (map k l) (g a) = rmap g (rfold f l a) /\ forall a', rfold f l a = Ok a' -> I a'.
Proof.
  induction l as [|x l IH]; cbn; intros a Ha H; [split; [reflexivity|]; intros a' E; inversion E; subst; exact Ha|].
  destruct (H a x Ha (or_introl eq_refl)) as [E I']. rewrite E. destruct (f a x) as [a1|]; cbn; [|split; [reflexivity|discriminate]].
  apply IH; [apply I'; reflexivity|]. intros; apply H; auto.
Qed.
Lemma map_idl {A} (l : list A) : map (fun x => x) l = l.
Proof. induction l; cbn; congruence. Qed.
Lemma in_vremove {A} (l : list A) : forall i x r, vremove i l = Some (x, r) -> In x l /\ incl r l.
Proof.
  induction l as [|y l IH]; intros [|i] x r; cbn; try discriminate.
  - intros E. inversion E; subst. split; [now left|]. intros z Hz; now right.
  - destruct (vremove i l) as [[z r']|] eqn:E; [|discriminate]. intros E'. inversion E'; subst.
    destruct (IH _ _ _ E) as [H1 H2]. split; [now right|]. intros w [<-|Hw]; [now left|right; auto].
Qed.
Lemma in_vset {A} (l : list A) : forall i x, incl (vset i x l) (x :: l).
Proof.
  induction l as [|y l IH]; intros [|i] x; cbn; intros z Hz; try tauto.
  - destruct Hz as [<-|Hz]; cbn; auto.
  - destruct Hz as [<-|Hz]; cbn; auto. destruct (IH _ _ _ Hz); auto.
Qed.
Lemma in_removelast {A} (l : list A) : incl (removelast l) l.
Proof. induction l as [|x [|y l] IH]; intros z Hz; [exact Hz|destruct Hz|]. destruct Hz as [<-|Hz]; [now left|right; apply IH, Hz]. Qed.
Lemma in_swap_remove {A} (l : list A) i x r : swap_remove i l = Some (x, r) -> In x l /\ incl r l.
Proof.
  unfold swap_remove. destruct (nth_error l i) as [y|] eqn:E; [|discriminate].
  destruct (rev l) as [|z q] eqn:E'; [discriminate|]. intros H. inversion H; subst; clear H. split; [eapply nth_error_In, E|].
  assert (Hz : In z l) by (apply in_rev; rewrite E'; now left).
  destruct (Nat.eqb i _); intros w Hw; [apply in_removelast, Hw|].
  apply in_vset in Hw. destruct Hw as [<-|Hw]; [exact Hz|apply in_removelast, Hw].
Qed.
Lemma in_vinsert {A} i (x : A) l : incl (vinsert i x l) (x :: l).
Proof.
  unfold vinsert. intros z Hz. apply in_app_or in Hz. destruct Hz as [Hz|[<-|Hz]]; [right|now left|right].
  - rewrite <- (firstn_skipn i l). apply in_or_app. now left.
  - rewrite <- (firstn_skipn i l). apply in_or_app. now right.
Qed.
Lemma vinsert_im {A B} (g : A -> B) i x l : vinsert i (g x) (map g l) = map g (vinsert i x l).
Proof. unfold vinsert. now rewrite map_app, firstn_map, skipn_map. Qed.

Section Sim.
  Context {F G : Type} {NF : Num F} {NG : Num G} {D : Type} {ED : EqD D} {BS : BSearch} (h : F -> G).
  Hypothesis BU : bsearch_uniform BS.
  Local Notation impt := (im_point h).
  Local Notation imed := (im_edge h).
  Local Notation imrc := (im_rect h).
  Local Notation impo := (im_poly h).
  Local Notation imhz := (@im_hazard F G D h).
  (** the parts of the quadtree *)
  Definition im_partial (p : partial F) : partial G := Par (im_arc h (pa_shape p)) (pa_edges p).
  Definition im_pres (p : presence F) : presence G :=
    match p with PNone => PNone | PPartial p => PPartial (im_partial p) | PEntire => PEntire end.
  Definition im_qth (q : qth F D) : qth G D := Qh (q_ent q) (im_pres (q_pres q)) (q_act q).
  Definition im_hv (v : hvec F D) : hvec G D := Hv (map im_qth (hv_list v)) (hv_n v).
  Fixpoint im_node (n : node F D) : node G D :=
    let '(Node l b v ch) := n in
    Node l (imrc b) (im_hv v)
      match ch with Some (Q4 a b c d) => Some (Q4 (im_node a) (im_node b) (im_node c) (im_node d)) | None => None end.
  Definition im_ch (ch : option (q4 (node F D))) : option (q4 (node G D)) := option_map (q4map im_node) ch.

  Variable okp : point F -> Prop.
  Variable okr : rect F -> Prop.
  Variable okcell : nat -> rect F -> Prop.
  Definition oke (e : edge F) : Prop := okp (es e) /\ okp (ee e).
  Definition okpoly (s : poly F) : Prop := Forall okp (p_pts s) /\ okr (p_bbox s) /\ okp (ccen (p_poi s)).
  Hypothesis H_pt : forall p q, okp p -> okp q -> pt_eq (impt p) (impt q) = pt_eq p q.
  Hypothesis H_ee : forall e f, oke e -> oke f -> ee_collides (imed e) (imed f) = ee_collides e f.
  Hypothesis H_re : forall r e, okr r -> oke e -> re_collides (imrc r) (imed e) = re_collides r e.
  Hypothesis H_rel : forall r s, okr r -> okr s -> relation_to (imrc r) (imrc s) = relation_to r s.
  Hypothesis H_arel : forall r s, okr r -> okr s -> almost_relation_to (imrc r) (imrc s) = almost_relation_to r s.
  Hypothesis H_rp : forall r p, okr r -> okp p -> rp_collides (imrc r) (impt p) = rp_collides r p.
  Hypothesis H_pp : forall s p, okpoly s -> okp p -> pp_collides (impo s) (impt p) = pp_collides s p.
  Hypothesis H_cell : forall l r, okcell l r -> okr r /\ impt (r_centroid r) = r_centroid (imrc r) /\ okp (r_centroid r).
  Hypothesis H_quad : forall l r, okcell (S l) r ->
    quadrants (imrc r) = q4map imrc (quadrants r) /\ forall i, okcell l (q4get (quadrants r) i).

  (** *** invariants *)
  Definition okpres (p : presence F) : Prop := match p with PPartial p => okpoly (a_obj (pa_shape p)) | _ => True end.
  Definition okq (q : qth F D) : Prop := okpres (q_pres q).
  Definition okv (v : hvec F D) : Prop := forall q, In q (hv_list v) -> okq q.
  Definition okhz (z : hazard F D) : Prop := okpoly (a_obj (h_shape z)).
  Fixpoint okn (n : node F D) : Prop :=
    let '(Node l b v ch) := n in
    okcell l b /\ okv v /\
    match ch with Some (Q4 a b c d) => okn a /\ okn b /\ okn c /\ okn d | None => True end.
  Definition okch (ch : option (q4 (node F D))) : Prop :=
    match ch with Some (Q4 a b c d) => okn a /\ okn b /\ okn c /\ okn d | None => True end.

  (** *** polygons *)
  Lemma npts_im s : n_points (impo s) = n_points s.
  Proof. unfold n_points. cbn. apply map_length. Qed.
  Lemma idx_im s : edge_indices (impo s) = edge_indices s.
  Proof. unfold edge_indices. now rewrite npts_im. Qed.
  Lemma edge_im s i : okpoly s -> get_edge (impo s) i = rmap imed (get_edge s i).
  Proof.
    intros (Hs & _ & _). unfold get_edge. rewrite npts_im. cbn [p_pts im_poly]. rewrite !nth_error_map.
    destruct (nth_error (p_pts s) i) as [a|] eqn:Ea; cbn [expect rbind rmap option_map]; [|reflexivity].
    destruct (nth_error (p_pts s) (Nat.modulo (i + 1) (n_points s))) as [b|] eqn:Eb; cbn [expect rbind rmap option_map]; [|reflexivity].
    rewrite Forall_forall in Hs. apply nth_error_In in Ea, Eb.
    unfold edge_new. rewrite H_pt by auto. destruct (pt_eq a b); reflexivity.
  Qed.
  Lemma edge_ok s i e : okpoly s -> get_edge s i = Ok e -> oke e.
  Proof.
    intros (Hs & _ & _). unfold get_edge. rewrite Forall_forall in Hs.
    destruct (nth_error (p_pts s) i) as [a|] eqn:Ea; cbn [expect rbind rmap option_map]; [|discriminate].
    destruct (nth_error (p_pts s) (Nat.modulo (i + 1) (n_points s))) as [b|] eqn:Eb; cbn [expect rbind rmap option_map]; [|discriminate].
    unfold edge_new. destruct (pt_eq a b); [discriminate|]. intros E; inversion E; subst.
    split; apply Hs; eapply nth_error_In; eassumption.
  Qed.

  (** *** hazard lists *)
  Lemma order_im x y : order_desc (im_qth x) (im_qth y) = order_desc x y.
  Proof. unfold order_desc. destruct x as [? [|?|] ?], y as [? [|?|] ?]; reflexivity. Qed.
  Lemma hv_add_im v q : hv_add (im_hv v) (im_qth q) = im_hv (hv_add v q).
  Proof.
    unfold hv_add, im_hv. cbn [hv_list hv_n].
    replace (bsearch (fun probe => order_desc probe (im_qth q)) (map im_qth (hv_list v)))
      with (bsearch (fun probe => order_desc probe q) (hv_list v)).
    - rewrite vinsert_im. reflexivity.
    - rewrite (BU _ (fun probe => order_desc probe q) (hv_list v)).
      rewrite (BU _ (fun probe => order_desc probe (im_qth q)) (map im_qth (hv_list v))), map_map. f_equal.
      apply map_ext. intros x. symmetry. apply order_im.
  Qed.
  Lemma hv_add_ok v q : okv v -> okq q -> okv (hv_add v q).
  Proof. intros Hv Hq x Hx. unfold hv_add in Hx. cbn [hv_list] in Hx. apply in_vinsert in Hx. destruct Hx as [<-|Hx]; auto. Qed.
  Lemma hv_remove_im v e : hv_remove (im_hv v) e = (option_map im_qth (fst (hv_remove v e)), im_hv (snd (hv_remove v e))).
  Proof.
    unfold hv_remove. cbn [hv_list im_hv]. rewrite (position_im im_qth (fun ch => ent_eqb (q_ent ch) e)) by reflexivity.
    destruct (position _ (hv_list v)) as [i|]; [|reflexivity].
    rewrite vremove_im. destruct (vremove i (hv_list v)) as [[y r]|]; reflexivity.
  Qed.
  Lemma hv_remove_ok v e : okv v -> okv (snd (hv_remove v e)).
  Proof.
    intros Hv. unfold hv_remove. destruct (position _ _) as [i|]; [|exact Hv].
    destruct (vremove i (hv_list v)) as [[y r]|] eqn:E; [|exact Hv]. apply in_vremove in E. intros q Hq. apply Hv, E, Hq.
  Qed.
  Lemma hv_act_im v e : hv_activate (im_hv v) e = (fst (hv_activate v e), im_hv (snd (hv_activate v e))).
  Proof.
    unfold hv_activate. cbn [hv_list im_hv]. rewrite (position_im im_qth (fun ch => ent_eqb (q_ent ch) e)) by reflexivity.
    destruct (position _ (hv_list v)) as [i|]; [|reflexivity].
    rewrite vremove_im. destruct (vremove i (hv_list v)) as [[y r]|]; cbn; [|reflexivity].
    change (Hv (map im_qth r) (hv_n v)) with (im_hv (Hv r (hv_n v))).
    change (Qh (q_ent y) (im_pres (q_pres y)) true) with (im_qth (Qh (q_ent y) (q_pres y) true)). rewrite hv_add_im. reflexivity.
  Qed.
  Lemma hv_deact_im v e : hv_deactivate (im_hv v) e = (fst (hv_deactivate v e), im_hv (snd (hv_deactivate v e))).
  Proof.
    unfold hv_deactivate. cbn [hv_list im_hv]. rewrite (position_im im_qth (fun ch => ent_eqb (q_ent ch) e)) by reflexivity.
    destruct (position _ (hv_list v)) as [i|]; [|reflexivity].
    rewrite vremove_im. destruct (vremove i (hv_list v)) as [[y r]|]; cbn; [|reflexivity].
    change (Hv (map im_qth r) (hv_n v - 1)) with (im_hv (Hv r (hv_n v - 1)%Z)).
    change (Qh (q_ent y) (im_pres (q_pres y)) false) with (im_qth (Qh (q_ent y) (q_pres y) false)). rewrite hv_add_im. reflexivity.
  Qed.
  Lemma hv_act_ok v e : okv v -> okv (snd (hv_activate v e)).
  Proof.
    intros Hv. unfold hv_activate. destruct (position _ _) as [i|]; [|exact Hv].
    destruct (vremove i (hv_list v)) as [[y r]|] eqn:E; [|exact Hv]. apply in_vremove in E. destruct E as [E1 E2].
    apply hv_add_ok; [intros q Hq; apply Hv, E2, Hq|apply (Hv _ E1)].
  Qed.
  Lemma hv_deact_ok v e : okv v -> okv (snd (hv_deactivate v e)).
  Proof.
    intros Hv. unfold hv_deactivate. destruct (position _ _) as [i|]; [|exact Hv].
    destruct (vremove i (hv_list v)) as [[y r]|] eqn:E; [|exact Hv]. apply in_vremove in E. destruct E as [E1 E2].
    apply hv_add_ok; [intros q Hq; apply Hv, E2, Hq|apply (Hv _ E1)].
  Qed.
  Lemma active_im v : active_hazards (im_hv v) = rmap (map im_qth) (active_hazards v).
  Proof.
    unfold active_hazards. cbn [hv_list hv_n im_hv]. rewrite map_length.
    destruct (_ && _); cbn; [|reflexivity]. now rewrite firstn_map.
  Qed.
  Lemma active_in (v : hvec F D) l : active_hazards v = Ok l -> incl l (hv_list v).
  Proof.
    unfold active_hazards. destruct (_ && _); [|discriminate]. intros E; inversion E; subst. intros x Hx.
    rewrite <- (firstn_skipn (Z.to_nat (hv_n v)) (hv_list v)). apply in_or_app. now left.
  Qed.
  Lemma strongest_im v irr : strongest (im_hv v) irr = rmap (option_map im_qth) (strongest v irr).
  Proof.
    unfold strongest. cbn [hv_n im_hv]. destruct (hv_n v =? 0)%Z; [reflexivity|].
    destruct irr as [|e irr].
    - cbn [hv_list im_hv]. destruct (hv_list v); reflexivity.
    - rewrite active_im. destruct (active_hazards v) as [l|]; cbn [rmap rbind]; [|reflexivity].
      rewrite (find_im im_qth (fun hz => negb (memb ent_eqb (q_ent hz) (e :: irr)))) by reflexivity. reflexivity.
  Qed.
  Lemma hv_get_im v e : hv_get (im_hv v) e = option_map im_qth (hv_get v e).
  Proof.
    unfold hv_get. cbn [hv_list im_hv]. rewrite (filter_im im_qth (fun hz => q_act hz)) by reflexivity.
    apply find_im. reflexivity.
  Qed.
  Lemma empty_im v : hv_is_empty (im_hv v) = hv_is_empty v.
  Proof. unfold hv_is_empty. cbn [hv_list im_hv]. destruct (hv_list v); reflexivity. Qed.
  Lemma entire_im v : has_only_entire (im_hv v) = has_only_entire v.
  Proof. unfold has_only_entire. cbn [hv_list im_hv]. apply forallb_im. intros [? [|?|] ?] _; reflexivity. Qed.

  (** *** constriction *)
  Definition im_qp (qp : q4 (option (presence F))) : q4 (option (presence G)) := q4map (option_map im_pres) qp.
  Definition okqp (qp : q4 (option (presence F))) : Prop :=
    forall i, match q4get qp i with Some p => okpres p | None => True end.
  Lemma okqp4 qp : okqp qp <-> (forall i, i < 4 -> match q4get qp i with Some p => okpres p | None => True end).
  Proof.
    split; intros H i; [intros _; apply H|]. destruct i as [|[|[|i]]]; [apply (H 0)|apply (H 1)|apply (H 2)|apply (H 3)]; lia.
  Qed.
  Lemma add_q_im a i e quad p : okr quad -> oke e ->
    add_edge_q (im_arc h a) i (imed e) (imrc quad) (option_map im_pres p) = rmap (option_map im_pres) (add_edge_q a i e quad p).
  Proof.
    intros Hr He. unfold add_edge_q. rewrite H_re by assumption. destruct (re_collides quad e); [|reflexivity].
    destruct p as [[|[s [|l]]|]|]; reflexivity.
  Qed.
  Lemma add_q_ok a i e quad p p' : okpoly (a_obj a) -> (match p with Some p => okpres p | None => True end) ->
    add_edge_q a i e quad p = Ok p' -> match p' with Some p => okpres p | None => True end.
  Proof.
    intros Ha Hp. unfold add_edge_q. destruct (re_collides quad e); [|intros E; inversion E; subst; exact Hp].
    destruct p as [[|[s [|l]]|]|]; cbn; try discriminate; intros E; inversion E; subst; cbn; assumption.
  Qed.
  Lemma add_edge_im a quads qp i : okpoly (a_obj a) -> (forall j, okr (q4get quads j)) -> okqp qp ->
    add_edge_to_q_presences (im_arc h a) (q4map imrc quads) (im_qp qp) i = rmap im_qp (add_edge_to_q_presences a quads qp i) /\
    forall qp', add_edge_to_q_presences a quads qp i = Ok qp' -> okqp qp'.
  Proof.
    intros Ha Hq Hp. unfold add_edge_to_q_presences. cbn [a_obj im_arc]. rewrite edge_im by exact Ha.
    destruct (get_edge (a_obj a) i) as [e|] eqn:Ee; cbn [rmap rbind]; [|split; [reflexivity|discriminate]].
    pose proof (edge_ok _ _ _ Ha Ee) as He. destruct quads as [q0 q1 q2 q3], qp as [p0 p1 p2 p3]. cbn [q4map im_qp qa qb qc qd].
    change (Arc (a_ptr a) (impo (a_obj a))) with (im_arc h a).
    rewrite (add_q_im a i e q0 p0 (Hq 0) He), (add_q_im a i e q1 p1 (Hq 1) He), (add_q_im a i e q2 p2 (Hq 2) He), (add_q_im a i e q3 p3 (Hq 3) He).
    destruct (add_edge_q a i e q0 p0) as [r0|] eqn:E0; cbn [rmap rbind]; [|split; [reflexivity|discriminate]].
    destruct (add_edge_q a i e q1 p1) as [r1|] eqn:E1; cbn [rmap rbind]; [|split; [reflexivity|discriminate]].
    destruct (add_edge_q a i e q2 p2) as [r2|] eqn:E2; cbn [rmap rbind]; [|split; [reflexivity|discriminate]].
    destruct (add_edge_q a i e q3 p3) as [r3|] eqn:E3; cbn [rmap rbind]; [|split; [reflexivity|discriminate]].
    split; [reflexivity|]. intros qp' E. inversion E; subst. apply okqp4. intros j Hj.
    destruct j as [|[|[|[|j]]]]; [| | | |lia]; cbn.
    - exact (add_q_ok _ _ _ _ _ _ Ha (Hp 0) E0).
    - exact (add_q_ok _ _ _ _ _ _ Ha (Hp 1) E1).
    - exact (add_q_ok _ _ _ _ _ _ Ha (Hp 2) E2).
    - exact (add_q_ok _ _ _ _ _ _ Ha (Hp 3) E3).
  Qed.
  Lemma qp_get qp i : q4get (im_qp qp) i = option_map im_pres (q4get qp i).
  Proof. apply q4get_map. Qed.
  Lemma qp_set qp i p : q4set (im_qp qp) i (option_map im_pres p) = im_qp (q4set qp i p).
  Proof. destruct qp, i as [|[|[|i]]]; reflexivity. Qed.
  Lemma is_entire_im p : is_entire (option_map im_pres p) = is_entire p.
  Proof. destruct p as [[|?|]|]; reflexivity. Qed.
  Lemma is_pnone_im p : is_pnone (option_map im_pres p) = is_pnone p.
  Proof. destruct p as [[|?|]|]; reflexivity. Qed.
  Lemma okqp_set qp i p : okqp qp -> (match p with Some p => okpres p | None => True end) -> okqp (q4set qp i p).
  Proof. intros H Hp j. destruct qp, i as [|[|[|i]]], j as [|[|[|j]]]; cbn; try exact Hp; [apply (H 1)|apply (H 2)|apply (H 3)|apply (H 0)|apply (H 2)|apply (H 3)|apply (H 0)|apply (H 1)|apply (H 3)|apply (H 0)|apply (H 1)|apply (H 2)]. Qed.
  Lemma resolve_im pos s quads qp i : okpoly s ->
    (forall j, impt (r_centroid (q4get quads j)) = r_centroid (imrc (q4get quads j)) /\ okp (r_centroid (q4get quads j))) -> okqp qp ->
    resolve_quadrant pos (impo s) (q4map imrc quads) (im_qp qp) i = rmap im_qp (resolve_quadrant pos s quads qp i) /\
    forall qp', resolve_quadrant pos s quads qp i = Ok qp' -> okqp qp'.
  Proof.
    intros Hs Hq Hp. unfold resolve_quadrant. rewrite qp_get.
    destruct (q4get qp i) as [p|] eqn:E; cbn [option_map].
    { split; [reflexivity|]. intros qp' E'. inversion E'; subst. exact Hp. }
    destruct (quadrant_neighbors i) as [n0 n1]. rewrite !qp_get, !is_entire_im, !is_pnone_im.
    change (Some (@PEntire G)) with (option_map im_pres (Some PEntire)). change (Some (@PNone G)) with (option_map im_pres (Some PNone)).
    repeat match goal with |- context [if ?b then _ else _] =>
      lazymatch b with is_entire _ => idtac | is_pnone _ => idtac end;
      destruct b; [rewrite qp_set; split; [reflexivity|intros qp' E'; inversion E'; subst; apply okqp_set; [exact Hp|exact Logic.I]]|] end.
    rewrite q4get_map. destruct (Hq i) as [C O]. rewrite <- C, H_pp by assumption.
    destruct (pp_collides s _) as [b|]; cbn [rmap rbind]; [|split; [reflexivity|discriminate]].
    split.
    - f_equal. rewrite <- qp_set. f_equal. destruct pos, b; reflexivity.
    - intros qp' E'. inversion E'; subst. apply okqp_set; [exact Hp|]. destruct pos, b; exact Logic.I.
  Qed.
  Definition im_oq (o : option (qth F D)) : option (qth G D) := option_map im_qth o.
  Definition okoq (o : option (qth F D)) : Prop := match o with Some q => okq q | None => True end.
  Lemma qth_new_im e p b : qth_new e (im_pres p) b = im_oq (qth_new e p b).
  Proof. destruct p; reflexivity. Qed.
  Lemma qth_new_ok (e : entity D) p b : okpres p -> okoq (qth_new e p b).
  Proof. destruct p; cbn; auto. Qed.
  Lemma constrict_im alive q quads : okq q -> (forall j, exists l, okcell l (q4get quads j)) ->
    constrict alive (im_qth q) (q4map imrc quads) = rmap (q4map im_oq) (constrict alive q quads) /\
    forall cs, constrict alive q quads = Ok cs -> okoq (qa cs) /\ okoq (qb cs) /\ okoq (qc cs) /\ okoq (qd cs).
  Proof.
    intros Hq Hc. unfold constrict. destruct q as [ent pr act]. cbn [q_pres q_ent q_act im_qth]. unfold okq in Hq. cbn in Hq.
    assert (Hr : forall j, okr (q4get quads j)) by (intros j; destruct (Hc j) as [l H]; apply (H_cell l _ H)).
    destruct pr as [|[a re]|]; cbn [im_pres].
    - split; [reflexivity|]. intros cs E; inversion E; subst; cbn; auto.
    - unfold shape_arc. cbn [pa_shape im_partial im_arc a_ptr]. destruct (alive (a_ptr a)); cbn [rmap rbind]; [|split; [reflexivity|discriminate]].
      cbn [a_obj im_arc pa_shape]. cbn in Hq.
      assert (Hrel : q4map (fun q => relation_to (p_bbox (impo (a_obj a))) q) (q4map imrc quads) = q4map (fun q => relation_to (p_bbox (a_obj a)) q) quads).
      { cbn [p_bbox im_poly]. unfold q4map. cbn [qa qb qc qd]. f_equal; (apply H_rel; [apply Hq|]); [apply (Hr 0)|apply (Hr 1)|apply (Hr 2)|apply (Hr 3)]. }
      rewrite Hrel.
      match goal with |- rbind ?X _ = rmap _ (rbind ?Y _) /\ _ =>
        assert (HX : X = rmap im_qp Y /\ forall qp, Y = Ok qp -> okqp qp) end.
      { destruct (position _ _) as [k|].
        - split.
          + cbn [rmap]. f_equal. rewrite <- qp_set. reflexivity.
          + intros qp E; inversion E; subst. apply okqp_set; [|exact Hq]. intros [|[|[|j]]]; exact Logic.I.
        - cbn [pa_edges im_partial]. rewrite idx_im.
          set (idx := match re with REAll => edge_indices (a_obj a) | RESome l => l end).
          assert (A : rfold (add_edge_to_q_presences (im_arc h a) (q4map imrc quads)) idx (im_qp (Q4 None None None None)) =
                      rmap im_qp (rfold (add_edge_to_q_presences a quads) idx (Q4 None None None None)) /\
                      forall qp, rfold (add_edge_to_q_presences a quads) idx (Q4 None None None None) = Ok qp -> okqp qp).
          { rewrite <- (map_idl idx) at 1. apply (rfold_sim im_qp (fun x => x) okqp).
            - intros [|[|[|j]]]; exact Logic.I.
            - intros qp i H _. apply add_edge_im; assumption. }
          destruct A as [A1 A2]. change (im_qp (Q4 None None None None)) with (Q4 (@None (presence G)) None None None) in A1. rewrite A1.
          destruct (rfold (add_edge_to_q_presences a quads) idx (Q4 None None None None)) as [qp|]; cbn [rmap rbind]; [|split; [reflexivity|discriminate]].
          change [0; 1; 2; 3] with (map (fun x : nat => x) [0; 1; 2; 3]) at 1.
          apply (rfold_sim im_qp (fun x => x) okqp); [apply A2; reflexivity|].
          intros qp1 i H _. apply resolve_im; [exact Hq| |exact H].
          intros j. destruct (Hc j) as [l Hl]. destruct (H_cell l _ Hl) as (_ & C & O). split; assumption. }
      destruct HX as [HX1 HX2]. rewrite HX1.
      match goal with |- context [rmap im_qp ?Y] => destruct Y as [qp|] end; cbn [rmap rbind]; [|split; [reflexivity|discriminate]].
      specialize (HX2 _ eq_refl). destruct qp as [p0 p1 p2 p3]. cbn [im_qp q4map qa qb qc qd].
      destruct p0 as [p0|]; cbn [option_map expect rbind rmap]; [|split; [reflexivity|discriminate]].
      destruct p1 as [p1|]; cbn [option_map expect rbind rmap]; [|split; [reflexivity|discriminate]].
      destruct p2 as [p2|]; cbn [option_map expect rbind rmap]; [|split; [reflexivity|discriminate]].
      destruct p3 as [p3|]; cbn [option_map expect rbind rmap]; [|split; [reflexivity|discriminate]].
      rewrite !qth_new_im. split; [reflexivity|]. intros cs E; inversion E; subst. cbn [qa qb qc qd].
      repeat split; apply qth_new_ok; [apply (HX2 0)|apply (HX2 1)|apply (HX2 2)|apply (HX2 3)].
    - split; [reflexivity|]. intros cs E; inversion E; subst; cbn; auto.
  Qed.

  (** *** nodes *)
  Lemma okn_eq l b v ch : okn (Node l b v ch) <-> okcell l b /\ okv v /\ okch ch.
  Proof. cbn. unfold okch. tauto. Qed.
  Lemma im_node_eq l b v ch : im_node (Node l b v ch) = Node l (imrc b) (im_hv v) (im_ch ch).
  Proof. cbn. unfold im_ch. destruct ch as [[? ? ? ?]|]; reflexivity. Qed.
  Lemma okch_get ch c : okch ch -> ch = Some c -> forall i, okn (q4get c i).
  Proof. intros H -> i. destruct c as [a b c d]. cbn in H. destruct i as [|[|[|i]]]; cbn; tauto. Qed.
  Lemma okn_cell n : okn n -> exists l, okcell l (n_bbox n).
  Proof. destruct n as [l b v ch]. intros H. apply okn_eq in H. exists l. apply H. Qed.
  Lemma bbox_im n : n_bbox (im_node n) = imrc (n_bbox n).
  Proof. destruct n as [l b v ch]. rewrite im_node_eq. reflexivity. Qed.
  Lemma level_im n : n_level (im_node n) = n_level n.
  Proof. destruct n as [l b v ch]. rewrite im_node_eq. reflexivity. Qed.
  Lemma reg_opt_im reg reg' c o : okn c -> okoq o ->
    (forall n q, okn n -> okq q -> reg' (im_node n) (im_qth q) = rmap im_node (reg n q) /\ forall n', reg n q = Ok n' -> okn n') ->
    reg_opt reg' (im_node c) (im_oq o) = rmap im_node (reg_opt reg c o) /\ forall c', reg_opt reg c o = Ok c' -> okn c'.
  Proof.
    intros Hc Ho H. destruct o as [q|]; cbn; [apply H; assumption|]. split; [reflexivity|]. intros c' E; inversion E; subst; exact Hc.
  Qed.
  Lemma children_im alive reg reg' ch q : okch ch -> okq q ->
    (forall n q, okn n -> okq q -> reg' (im_node n) (im_qth q) = rmap im_node (reg n q) /\ forall n', reg n q = Ok n' -> okn n') ->
    register_to_children alive reg' (im_ch ch) (im_qth q) = rmap im_ch (register_to_children alive reg ch q) /\
    forall ch', register_to_children alive reg ch q = Ok ch' -> okch ch'.
  Proof.
    intros Hch Hq H. unfold register_to_children. destruct ch as [c|]; cbn [im_ch option_map]; [|split; [reflexivity|intros ch' E; inversion E; exact Logic.I]].
    pose proof (okch_get _ _ Hch eq_refl) as Hg.
    replace (q4map (n_bbox (F := G) (D := D)) (q4map im_node c)) with (q4map imrc (q4map (@n_bbox F D) c))
      by (unfold q4map; cbn [qa qb qc qd]; rewrite !bbox_im; reflexivity).
    destruct (constrict_im alive q (q4map (@n_bbox F D) c) Hq) as [C1 C2].
    { intros j. rewrite q4get_map. apply okn_cell, Hg. }
    rewrite C1. destruct (constrict alive q _) as [[o0 o1 o2 o3]|]; cbn [rmap rbind]; [|split; [reflexivity|discriminate]].
    destruct (C2 _ eq_refl) as (K0 & K1 & K2 & K3). cbn [q4map qa qb qc qd] in *.
    destruct c as [c0 c1 c2 c3]. cbn [qa qb qc qd].
    destruct (reg_opt_im reg reg' c0 o0 (Hg 0) K0 H) as [R0 P0].
    destruct (reg_opt_im reg reg' c1 o1 (Hg 1) K1 H) as [R1 P1].
    destruct (reg_opt_im reg reg' c2 o2 (Hg 2) K2 H) as [R2 P2].
    destruct (reg_opt_im reg reg' c3 o3 (Hg 3) K3 H) as [R3 P3].
    rewrite R0, R1, R2, R3.
    destruct (reg_opt reg c0 o0) as [r0|]; cbn [rmap rbind]; [|split; [reflexivity|discriminate]].
    destruct (reg_opt reg c1 o1) as [r1|]; cbn [rmap rbind]; [|split; [reflexivity|discriminate]].
    destruct (reg_opt reg c2 o2) as [r2|]; cbn [rmap rbind]; [|split; [reflexivity|discriminate]].
    destruct (reg_opt reg c3 o3) as [r3|]; cbn [rmap rbind]; [|split; [reflexivity|discriminate]].
    split; [reflexivity|]. intros ch' E; inversion E; subst. cbn. auto.
  Qed.
  Lemma generate_im l b : okcell l b ->
    generate_children l (imrc b) = im_ch (generate_children (D := D) l b) /\ okch (generate_children l b).
  Proof.
    intros H. unfold generate_children. destruct l as [|l]; [split; [reflexivity|exact Logic.I]|].
    destruct (H_quad l b H) as [E O]. rewrite E. destruct (quadrants b) as [q0 q1 q2 q3]. split; [reflexivity|].
    cbn. assert (V : forall r, okcell l r -> okcell l r /\ okv hv_new /\ True) by (intros r Hr; split; [exact Hr|split; [intros x []|exact Logic.I]]).
    repeat split; try (intros x []); [apply (O 0)|apply (O 1)|apply (O 2)|apply (O 3)].
  Qed.
  Lemma node_register_im alive fuel : forall n q, okn n -> okq q ->
    node_register alive fuel (im_node n) (im_qth q) = rmap im_node (node_register alive fuel n q) /\
    forall n', node_register alive fuel n q = Ok n' -> okn n'.
  Proof.
    induction fuel as [|fuel IH]; intros [l b v ch] q Hn Hq; apply okn_eq in Hn; destruct Hn as (Hc & Hv & Hch); rewrite im_node_eq; cbn [node_register].
    - assert (H : forall n q, okn n -> okq q -> (fun (_ : node G D) (_ : qth G D) => @Panic (node G D)) (im_node n) (im_qth q) = rmap im_node ((fun (_ : node F D) (_ : qth F D) => @Panic (node F D)) n q) /\
          forall n', (fun (_ : node F D) (_ : qth F D) => @Panic (node F D)) n q = Ok n' -> okn n') by (intros; split; [reflexivity|discriminate]).
      set (rF := fun (_ : node F D) (_ : qth F D) => @Panic (node F D)) in *. set (rG := fun (_ : node G D) (_ : qth G D) => @Panic (node G D)) in *.
      assert (K : (if negb (is_some (im_ch ch)) && Nat.ltb 0 l && is_partial (im_qth q) then rfold (register_to_children alive rG) (hv_list (im_hv v)) (generate_children l (imrc b)) else Ok (im_ch ch)) =
                  rmap im_ch (if negb (is_some ch) && Nat.ltb 0 l && is_partial q then rfold (register_to_children alive rF) (hv_list v) (generate_children l b) else Ok ch) /\
                  forall c, (if negb (is_some ch) && Nat.ltb 0 l && is_partial q then rfold (register_to_children alive rF) (hv_list v) (generate_children l b) else Ok ch) = Ok c -> okch c).
      { replace (is_some (im_ch ch)) with (is_some ch) by (destruct ch; reflexivity).
        replace (is_partial (im_qth q)) with (is_partial q) by (destruct q as [? [|?|] ?]; reflexivity).
        destruct (negb _ && _ && _); [|split; [reflexivity|intros c E; inversion E; subst; exact Hch]].
        destruct (generate_im l b Hc) as [G1 G2]. rewrite G1. cbn [hv_list im_hv].
        apply (rfold_sim im_ch im_qth okch); [exact G2|]. intros a x Ha Hx. apply children_im; [exact Ha|apply Hv, Hx|exact H]. }
      destruct K as [K1 K2]. rewrite K1. match goal with |- context [rmap im_ch ?Y] => destruct Y as [c1|] end; cbn [rmap rbind]; [|split; [reflexivity|discriminate]].
      destruct (children_im alive rF rG c1 q (K2 _ eq_refl) Hq H) as [C1 C2]. rewrite C1.
      destruct (register_to_children alive rF c1 q) as [c2|]; cbn [rmap rbind]; [|split; [reflexivity|discriminate]].
      rewrite hv_add_im, im_node_eq. split; [reflexivity|]. intros n' E; inversion E; subst. apply okn_eq. split; [exact Hc|]. split; [apply hv_add_ok; assumption|]. apply C2. reflexivity.
    - pose proof IH as H. set (rF := node_register alive fuel (F := F)) in *.
      set (rG := node_register alive fuel (F := G)) in *.
      assert (K : (if negb (is_some (im_ch ch)) && Nat.ltb 0 l && is_partial (im_qth q) then rfold (register_to_children alive rG) (hv_list (im_hv v)) (generate_children l (imrc b)) else Ok (im_ch ch)) =
                  rmap im_ch (if negb (is_some ch) && Nat.ltb 0 l && is_partial q then rfold (register_to_children alive rF) (hv_list v) (generate_children l b) else Ok ch) /\
                  forall c, (if negb (is_some ch) && Nat.ltb 0 l && is_partial q then rfold (register_to_children alive rF) (hv_list v) (generate_children l b) else Ok ch) = Ok c -> okch c).
      { replace (is_some (im_ch ch)) with (is_some ch) by (destruct ch; reflexivity).
        replace (is_partial (im_qth q)) with (is_partial q) by (destruct q as [? [|?|] ?]; reflexivity).
        destruct (negb _ && _ && _); [|split; [reflexivity|intros c E; inversion E; subst; exact Hch]].
        destruct (generate_im l b Hc) as [G1 G2]. rewrite G1. cbn [hv_list im_hv].
        apply (rfold_sim im_ch im_qth okch); [exact G2|]. intros a x Ha Hx. apply children_im; [exact Ha|apply Hv, Hx|exact H]. }
      destruct K as [K1 K2]. rewrite K1. match goal with |- context [rmap im_ch ?Y] => destruct Y as [c1|] end; cbn [rmap rbind]; [|split; [reflexivity|discriminate]].
      destruct (children_im alive rF rG c1 q (K2 _ eq_refl) Hq H) as [C1 C2]. rewrite C1.
      destruct (register_to_children alive rF c1 q) as [c2|]; cbn [rmap rbind]; [|split; [reflexivity|discriminate]].
      rewrite hv_add_im, im_node_eq. split; [reflexivity|]. intros n' E; inversion E; subst. apply okn_eq. split; [exact Hc|]. split; [apply hv_add_ok; assumption|]. apply C2. reflexivity.
  Qed.

  Lemma node_ind4 : forall P : node F D -> Prop,
    (forall l b v, P (Node l b v None)) ->
    (forall l b v c0 c1 c2 c3, P c0 -> P c1 -> P c2 -> P c3 -> P (Node l b v (Some (Q4 c0 c1 c2 c3)))) -> forall n, P n.
  Proof.
    intros P HN HS. fix IH 1. intros [l b v [[c0 c1 c2 c3]|]]; [apply HS; apply IH|apply HN].
  Qed.
  Lemma dereg_im n e : okn n -> node_deregister (im_node n) e = im_node (node_deregister n e) /\ okn (node_deregister n e).
  Proof.
    induction n as [l b v|l b v c0 c1 c2 c3 H0 H1 H2 H3] using node_ind4; intros Hn; cbn [okn] in Hn; cbn [im_node node_deregister]; rewrite hv_remove_im.
    - destruct (hv_remove v e) as [o v'] eqn:E. cbn [fst snd]. pose proof (hv_remove_ok v e (proj1 (proj2 Hn))) as Ho. rewrite E in Ho.
      destruct o; cbn; tauto.
    - destruct (hv_remove v e) as [o v'] eqn:E. cbn [fst snd]. pose proof (hv_remove_ok v e (proj1 (proj2 Hn))) as Ho. rewrite E in Ho. cbn [snd] in Ho.
      destruct Hn as (Hc & Hv & K0 & K1 & K2 & K3). destruct o; cbn [option_map]; [|cbn; tauto].
      rewrite empty_im, entire_im. destruct (hv_is_empty v' || has_only_entire v'); [cbn; tauto|].
      destruct (H0 K0) as [-> ?], (H1 K1) as [-> ?], (H2 K2) as [-> ?], (H3 K3) as [-> ?]. cbn. tauto.
  Qed.
  Lemma activate_im n e : okn n -> node_activate (im_node n) e = im_node (node_activate n e) /\ okn (node_activate n e).
  Proof.
    induction n as [l b v|l b v c0 c1 c2 c3 H0 H1 H2 H3] using node_ind4; intros Hn; cbn [okn] in Hn; cbn [im_node node_activate]; rewrite hv_act_im.
    - destruct (hv_activate v e) as [o v'] eqn:E. cbn [fst snd]. pose proof (hv_act_ok v e (proj1 (proj2 Hn))) as Ho. rewrite E in Ho.
      destruct o; cbn; tauto.
    - destruct (hv_activate v e) as [o v'] eqn:E. cbn [fst snd]. pose proof (hv_act_ok v e (proj1 (proj2 Hn))) as Ho. rewrite E in Ho. cbn [snd] in Ho.
      destruct Hn as (Hc & Hv & K0 & K1 & K2 & K3). destruct o; [|cbn; tauto].
      destruct (H0 K0) as [-> ?], (H1 K1) as [-> ?], (H2 K2) as [-> ?], (H3 K3) as [-> ?]. cbn. tauto.
  Qed.
  Lemma deactivate_im n e : okn n -> node_deactivate (im_node n) e = im_node (node_deactivate n e) /\ okn (node_deactivate n e).
  Proof.
    induction n as [l b v|l b v c0 c1 c2 c3 H0 H1 H2 H3] using node_ind4; intros Hn; cbn [okn] in Hn; cbn [im_node node_deactivate]; rewrite hv_deact_im.
    - destruct (hv_deactivate v e) as [o v'] eqn:E. cbn [fst snd]. pose proof (hv_deact_ok v e (proj1 (proj2 Hn))) as Ho. rewrite E in Ho.
      destruct o; cbn; tauto.
    - destruct (hv_deactivate v e) as [o v'] eqn:E. cbn [fst snd]. pose proof (hv_deact_ok v e (proj1 (proj2 Hn))) as Ho. rewrite E in Ho. cbn [snd] in Ho.
      destruct Hn as (Hc & Hv & K0 & K1 & K2 & K3). destruct o; [|cbn; tauto].
      destruct (H0 K0) as [-> ?], (H1 K1) as [-> ?], (H2 K2) as [-> ?], (H3 K3) as [-> ?]. cbn. tauto.
  Qed.

  (** *** queries *)
  Definition same_query (q : query F) (q' : query G) : Prop :=
    (forall r, okr r -> qy_rect q' (imrc r) = qy_rect q r) /\ (forall e, oke e -> qy_edge q' (imed e) = qy_edge q e).
  Lemma edge_query_im e : oke e -> same_query (edge_query e) (edge_query (imed e)).
  Proof. intros He. split; cbn; intros; [apply H_re|apply H_ee]; assumption. Qed.
  Lemma partial_im alive q q' p : same_query q q' -> okpoly (a_obj (pa_shape p)) ->
    partial_collides alive q' (im_partial p) = partial_collides alive q p.
  Proof.
    intros [Qr Qe] Hs. unfold partial_collides, shape_arc. cbn [pa_shape im_partial im_arc a_ptr a_obj pa_edges].
    destruct (alive _); cbn [rbind a_obj im_arc]; [|reflexivity]. rewrite idx_im.
    assert (S : forall l, rany (fun i => e <- get_edge (impo (a_obj (pa_shape p))) i ;; Ok (qy_edge q' e)) l = rany (fun i => e <- get_edge (a_obj (pa_shape p)) i ;; Ok (qy_edge q e)) l).
    { intros l. apply rany_ext. intros i _. rewrite edge_im by exact Hs. destruct (get_edge _ i) as [e|] eqn:E; cbn; [|reflexivity].
      rewrite Qe; [reflexivity|]. eapply edge_ok; eassumption. }
    cbn [p_bbox im_poly]. rewrite Qr by apply Hs. destruct (pa_edges p) as [|l]; [now rewrite S|]. rewrite S. reflexivity.
  Qed.
  Lemma collides_im alive q q' irr n : same_query q q' -> okn n ->
    node_collides alive (im_node n) q' irr = node_collides alive n q irr.
  Proof.
    intros Hq. induction n as [l b v|l b v c0 c1 c2 c3 H0 H1 H2 H3] using node_ind4; intros Hn; cbn [okn] in Hn; cbn [im_node node_collides]; rewrite strongest_im.
    all: destruct (strongest v irr) as [[s|]|]; cbn [rmap rbind option_map]; try reflexivity.
    all: rewrite (proj1 Hq) by (apply (H_cell l), (proj1 Hn)); destruct (qy_rect q b); [|reflexivity].
    all: destruct s as [ent [|p|] act]; cbn [q_pres im_qth im_pres q_ent]; try reflexivity.
    - rewrite active_im. destruct (active_hazards v) as [l0|] eqn:E; cbn [rmap rbind]; [|reflexivity].
      rewrite (filter_im im_qth (fun hz => negb (memb ent_eqb (q_ent hz) irr))) by reflexivity.
      rewrite (rfind_im im_qth (fun hz => match q_pres hz with PNone => Ok false | PPartial p => partial_collides alive q p | PEntire => Panic end)).
      + match goal with |- context [rmap _ ?Y] => destruct Y as [[?|]|] end; reflexivity.
      + intros [e' [|p'|] a'] Hx; cbn; try reflexivity. apply partial_im; [exact Hq|].
        apply filter_In in Hx. destruct Hx as [Hx _]. apply (active_in _ _ E) in Hx. exact (proj1 (proj2 Hn) _ Hx).
    - destruct Hn as (_ & _ & K0 & K1 & K2 & K3). rewrite H0, H1, H2, H3 by assumption. reflexivity.
  Qed.
  Lemma collect_im alive q q' n : same_query q q' -> okn n -> forall det,
    node_collect alive (im_node n) q' det = node_collect alive n q det.
  Proof.
    intros Hq. induction n as [l b v|l b v c0 c1 c2 c3 H0 H1 H2 H3] using node_ind4; intros Hn det; cbn [okn] in Hn; cbn [im_node node_collect]; rewrite strongest_im.
    all: destruct (strongest v det) as [[s|]|]; cbn [rmap rbind option_map]; try reflexivity.
    all: rewrite (proj1 Hq) by (apply (H_cell l), (proj1 Hn)); destruct (qy_rect q b); [|reflexivity].
    all: destruct s as [ent [|p|] act]; cbn [q_pres im_qth im_pres q_ent]; try reflexivity.
    - rewrite active_im. destruct (active_hazards v) as [l0|] eqn:E; cbn [rmap rbind]; [|reflexivity].
      match goal with |- rfold ?f' _ _ = rfold ?f _ _ => pose proof (rfold_sim (fun d : list (entity D) => d) im_qth (fun _ => True) f f' l0 det Logic.I) as R end.
      destruct R as [R _]; [|rewrite R; match goal with |- rmap _ ?Y = _ => destruct Y; reflexivity end].
      intros d [e' [|p'|] a'] _ Hx; split; try (intros; exact Logic.I); cbn; destruct (memb ent_eqb e' d); try reflexivity.
      rewrite (partial_im alive q q'); [destruct (partial_collides alive q p') as [[|]|]; reflexivity|exact Hq|].
      apply (active_in _ _ E) in Hx. exact (proj1 (proj2 Hn) _ Hx).
    - destruct Hn as (_ & _ & K0 & K1 & K2 & K3). rewrite H0 by assumption. destruct (node_collect alive c0 q det) as [d0|]; cbn; [|reflexivity].
      rewrite H1 by assumption. destruct (node_collect alive c1 q d0) as [d1|]; cbn; [|reflexivity].
      rewrite H2 by assumption. destruct (node_collect alive c2 q d1) as [d2|]; cbn; [|reflexivity]. apply H3. assumption.
  Qed.
  Lemma definitely_im qr qr' irr n : (forall r, okr r -> qr' (imrc r) = qr r) -> okn n ->
    node_definitely (im_node n) qr' irr = node_definitely n qr irr.
  Proof.
    intros Hq. induction n as [l b v|l b v c0 c1 c2 c3 H0 H1 H2 H3] using node_ind4; intros Hn; cbn [okn] in Hn; cbn [im_node node_definitely]; rewrite strongest_im.
    all: destruct (strongest v irr) as [[s|]|]; cbn [rmap rbind option_map]; try reflexivity.
    all: rewrite Hq by (apply (H_cell l), (proj1 Hn)); destruct (qr b); [|reflexivity].
    all: destruct s as [ent [|p|] act]; cbn [q_pres im_qth im_pres q_ent]; try reflexivity.
    destruct Hn as (_ & _ & K0 & K1 & K2 & K3). rewrite H0, H1, H2, H3 by assumption. reflexivity.
  Qed.
  Lemma definitely_with_im qr qr' e n : (forall r, okr r -> qr' (imrc r) = qr r) -> okn n ->
    node_definitely_with (im_node n) qr' e = node_definitely_with n qr e.
  Proof.
    intros Hq. induction n as [l b v|l b v c0 c1 c2 c3 H0 H1 H2 H3] using node_ind4; intros Hn; cbn [okn] in Hn; cbn [im_node node_definitely_with]; rewrite hv_get_im.
    all: destruct (hv_get v e) as [s|]; cbn [rmap rbind option_map]; try reflexivity.
    all: rewrite Hq by (apply (H_cell l), (proj1 Hn)); destruct (qr b); [|reflexivity].
    all: destruct s as [ent [|p|] act]; cbn [q_pres im_qth im_pres q_ent]; try reflexivity.
    destruct Hn as (_ & _ & K0 & K1 & K2 & K3). rewrite H0, H1, H2, H3 by assumption. reflexivity.
  Qed.

  (** *** the engine, without its proximity grid *)
  Definition im_cde (c : cde F D) : cde G D :=
    Cde (im_node (cd_qt c)) (map imhz (cd_static c)) (map imhz (cd_dyn c)) None (imrc (cd_bbox c)) (map imhz (cd_unc c)).
  Definition im_snap (s : snapshot F D) : snapshot G D := Snap (map imhz (sn_dyn s)) None.
  Definition okhs (l : list (hazard F D)) : Prop := forall z, In z l -> okhz z.
  Definition okc (c : cde F D) : Prop :=
    okn (cd_qt c) /\ okhs (cd_static c) /\ okhs (cd_dyn c) /\ okhs (cd_unc c) /\ okr (cd_bbox c).
  Definition oks (s : snapshot F D) : Prop := okhs (sn_dyn s).
  Local Ltac five := split; [|split; [|split; [|split]]].
  Lemma owned_im l p : owned (map imhz l) p = owned l p.
  Proof. apply existsb_im. reflexivity. Qed.
  Lemma alive_ext alive alive' (n : node F D) fuel q : (forall p, alive p = alive' p) -> node_register alive fuel n q = node_register alive' fuel n q.
  Proof.
    intros E. assert (C : forall (q : qth F D) quads, constrict alive q quads = constrict alive' q quads).
    { intros q0 quads. unfold constrict, shape_arc. destruct (q_pres q0); try reflexivity. now rewrite E. }
    assert (RC : forall r r' ch (q : qth F D), (forall n q, r n q = r' n q) -> register_to_children alive r ch q = register_to_children alive' r' ch q).
    { intros r r' ch q0 H. unfold register_to_children. destruct ch; [|reflexivity]. rewrite C.
      destruct (constrict alive' q0 _) as [cs|]; cbn [rbind]; [|reflexivity].
      unfold reg_opt. destruct (qa cs), (qb cs), (qc cs), (qd cs); rewrite ?H; repeat (match goal with |- context [rbind ?x _] => destruct x end; cbn [rbind]; rewrite ?H); reflexivity. }
    assert (RF : forall (r r' : node F D -> qth F D -> res (node F D)) l ch, (forall n q, r n q = r' n q) -> rfold (register_to_children alive r) l ch = rfold (register_to_children alive' r') l ch).
    { intros r r' l. induction l as [|x l IH]; intros ch H; cbn; [reflexivity|]. rewrite (RC r r') by exact H. destruct (register_to_children alive' r' ch x); cbn; [apply IH, H|reflexivity]. }
    revert n q. induction fuel as [|fuel IH]; intros [l b v ch] q; cbn [node_register].
    - rewrite (RF _ (fun (_ : node F D) (_ : qth F D) => @Panic (node F D))) by reflexivity. match goal with |- rbind ?Y _ = _ => destruct Y as [c1|] end; cbn [rbind]; [|reflexivity].
      rewrite (RC _ (fun (_ : node F D) (_ : qth F D) => @Panic (node F D))) by reflexivity. reflexivity.
    - rewrite (RF _ (node_register alive' fuel)) by exact IH. match goal with |- rbind ?Y _ = _ => destruct Y as [c1|] end; cbn [rbind]; [|reflexivity].
      rewrite (RC _ (node_register alive' fuel)) by exact IH. reflexivity.
  Qed.
  Lemma qt_register_im alive alive' n z : (forall p, alive' p = alive p) -> okn n -> okhz z ->
    qt_register alive' (im_node n) (imhz z) = rmap im_node (qt_register alive n z) /\ forall n', qt_register alive n z = Ok n' -> okn n'.
  Proof.
    intros E Hn Hz. unfold qt_register. rewrite level_im.
    rewrite <- (alive_ext alive' alive n (n_level n)) by exact E.
    apply (node_register_im alive' (n_level n) n (qth_of_hazard z) Hn). exact Hz.
  Qed.
  Lemma ent_is_im e z : ent_is e (imhz z) = ent_is e z.
  Proof. reflexivity. Qed.
  Lemma okhs_app l l' : okhs l -> okhs l' -> okhs (l ++ l').
  Proof. intros H H' z Hz. apply in_app_or in Hz. destruct Hz; auto. Qed.
  Lemma okhs_one z : okhz z -> okhs [z].
  Proof. intros H w [<-|[]]. exact H. Qed.
  Lemma okhs_incl l l' : okhs l -> incl l' l -> okhs l'.
  Proof. intros H I z Hz. apply H, I, Hz. Qed.

  Lemma new_im bb statics depth n_cells c : okcell depth bb -> okhs statics -> cde_new bb statics depth n_cells = Ok c ->
    cde_new (imrc bb) (map imhz statics) depth 0 = Ok (im_cde c) /\ okc c.
  Proof.
    intros Hb Hs E. unfold cde_new in *.
    destruct (match n_cells with 0 => Ok None | S _ => _ end) as [g|]; cbn [rbind] in E; [|discriminate].
    assert (Hn : okn (node_new depth bb)) by (cbn; repeat split; [exact Hb|intros x []]).
    destruct (rfold_sim im_node imhz okn (qt_register (owned statics)) (qt_register (owned (map imhz statics))) statics (node_new depth bb) Hn) as [R1 R2].
    { intros n z H Hz. apply qt_register_im; [apply owned_im|exact H|apply Hs, Hz]. }
    change (im_node (node_new depth bb)) with (@node_new G D depth (imrc bb)) in R1.
    cbn [rbind]. rewrite R1. destruct (rfold _ statics (node_new depth bb)) as [qt|]; cbn [rbind rmap] in *; [|discriminate].
    inversion E; subst. split; [reflexivity|]. five; cbn; try (intros z []); [apply R2; reflexivity|exact Hs|apply (H_cell depth), Hb].
  Qed.
  Lemma register_im c z c' : okc c -> okhz z -> cde_register c z = Ok c' ->
    cde_register (im_cde c) (imhz z) = Ok (im_cde c') /\ okc c'.
  Proof.
    intros (Hq & Hs & Hd & Hu & Hb) Hz E. unfold cde_register in *. cbn [cd_unc im_cde cd_qt cd_static cd_dyn cd_hpg cd_bbox opt_hpg].
    rewrite (position_im imhz (ent_is (h_ent z))) by reflexivity. change (h_ent (imhz z)) with (h_ent z).
    destruct (position _ (cd_unc c)) as [i|] eqn:Ei.
    - rewrite swap_remove_im. destruct (swap_remove i (cd_unc c)) as [[u unc]|] eqn:Es; cbn [option_map expect rbind fst snd] in *; [|discriminate].
      destruct (in_swap_remove _ _ _ _ Es) as [Iu Il]. destruct (activate_im (cd_qt c) (h_ent u) Hq) as [A1 A2].
      change (h_ent (imhz u)) with (h_ent u). rewrite A1.
      destruct (opt_hpg _ (cd_hpg c)) as [g|]; cbn [rbind] in E; [|discriminate]. inversion E; subst. split; [unfold im_cde; cbn; rewrite map_app; reflexivity|].
      five; cbn; try assumption; [apply okhs_app; [exact Hd|apply okhs_one, Hu, Iu]|exact (okhs_incl _ _ Hu Il)].
    - cbn [rbind].
      destruct (qt_register_im (owned (z :: cd_static c ++ cd_dyn c ++ cd_unc c)) (owned (imhz z :: map imhz (cd_static c) ++ map imhz (cd_dyn c) ++ map imhz (cd_unc c))) (cd_qt c) z) as [R1 R2]; [|exact Hq|exact Hz|].
      { intros p. rewrite <- !map_app. apply (owned_im (z :: _)). }
      rewrite R1. destruct (qt_register _ (cd_qt c) z) as [qt|]; cbn [rmap rbind] in *; [|discriminate].
      destruct (opt_hpg _ (cd_hpg c)) as [g|]; cbn [rbind] in E; [|discriminate]. inversion E; subst. split; [unfold im_cde; cbn; rewrite map_app; reflexivity|].
      five; cbn; try assumption; [apply R2; reflexivity|apply okhs_app; [exact Hd|apply okhs_one, Hz]].
  Qed.
  Lemma deregister_im c e b c' : okc c -> cde_deregister c e b = Ok c' ->
    cde_deregister (im_cde c) e b = Ok (im_cde c') /\ okc c'.
  Proof.
    intros (Hq & Hs & Hd & Hu & Hb) E. unfold cde_deregister in *. cbn [cd_unc im_cde cd_qt cd_static cd_dyn cd_hpg cd_bbox opt_hpg].
    rewrite (position_im imhz (ent_is e)) by reflexivity.
    destruct (position _ (cd_dyn c)) as [i|] eqn:Ei; cbn [expect rbind] in *; [|discriminate].
    rewrite swap_remove_im. destruct (swap_remove i (cd_dyn c)) as [[z dyn]|] eqn:Es; cbn [option_map expect rbind fst snd] in *; [|discriminate].
    destruct (in_swap_remove _ _ _ _ Es) as [Iz Il].
    destruct (dereg_im (cd_qt c) e Hq) as [A1 A2], (deactivate_im (cd_qt c) e Hq) as [B1 B2]. rewrite A1, B1.
    destruct b; (destruct (opt_hpg _ (cd_hpg c)) as [g|]; cbn [rbind] in *; [|discriminate]); inversion E; subst.
    - split; [reflexivity|]. five; cbn; try assumption; []. exact (okhs_incl _ _ Hd Il).
    - split; [unfold im_cde; cbn; rewrite map_app; reflexivity|]. five; cbn; try assumption; [exact (okhs_incl _ _ Hd Il)|].
      apply okhs_app; [exact Hu|apply okhs_one, Hd, Iz].
  Qed.
  Lemma commit_fold_im l : forall n, okn n ->
    fold_left (fun n z => node_deregister n (h_ent z)) (map imhz l) (im_node n) = im_node (fold_left (fun n z => node_deregister n (h_ent z)) l n) /\
    okn (fold_left (fun n (z : hazard F D) => node_deregister n (h_ent z)) l n).
  Proof.
    induction l as [|z l IH]; intros n Hn; cbn; [split; [reflexivity|exact Hn]|].
    destruct (dereg_im n (h_ent z) Hn) as [-> H]. apply IH, H.
  Qed.
  Lemma commit_im c c' : okc c -> cde_commit c = Ok c' -> cde_commit (im_cde c) = Ok (im_cde c') /\ okc c'.
  Proof.
    intros (Hq & Hs & Hd & Hu & Hb) E. unfold cde_commit in *. cbn [cd_unc im_cde cd_qt cd_static cd_dyn cd_hpg cd_bbox opt_hpg rbind].
    destruct (opt_hpg _ (cd_hpg c)) as [g|]; cbn [rbind] in E; [|discriminate]. inversion E; subst.
    destruct (commit_fold_im (cd_unc c) (cd_qt c) Hq) as [C1 C2]. rewrite C1. split; [reflexivity|]. five; cbn; try assumption. intros z [].
  Qed.
  Lemma flush_im c c' : okc c -> cde_flush c = Ok c' -> cde_flush (im_cde c) = Ok (im_cde c') /\ okc c'.
  Proof.
    intros (Hq & Hs & Hd & Hu & Hb) E. unfold cde_flush in *. cbn [cd_unc im_cde cd_qt cd_static cd_dyn cd_hpg cd_bbox opt_hpg rbind].
    destruct (opt_hpg _ (cd_hpg c)) as [g|]; cbn [rbind] in E; [|discriminate]. inversion E; subst. split; [reflexivity|]. five; cbn; assumption.
  Qed.
  Lemma snapshot_im c s c' : okc c -> cde_snapshot c = Ok (s, c') -> cde_snapshot (im_cde c) = Ok (im_snap s, im_cde c') /\ okc c' /\ oks s.
  Proof.
    intros Hc E. unfold cde_snapshot in *. destruct (cde_commit c) as [c1|] eqn:Ec; cbn [rbind] in E; [|discriminate].
    destruct (commit_im _ _ Hc Ec) as [C1 C2]. rewrite C1. cbn [rbind]. cbn [cd_hpg im_cde rassert rbind].
    destruct (rassert _); cbn [rbind] in E; [|discriminate]. inversion E; subst. split; [reflexivity|]. split; [exact C2|]. apply C2.
  Qed.
  Lemma split_im l : forall rem add, fold_left restore_split (map imhz l) (rem, map imhz add) =
    (fst (fold_left restore_split l (rem, add)), map imhz (snd (fold_left restore_split l (rem, add)))) /\
    (okhs l -> okhs add -> okhs (snd (fold_left restore_split l (rem, add)))).
  Proof.
    induction l as [|z l IH]; intros rem add; cbn [fold_left map]; [split; [reflexivity|auto]|].
    unfold restore_split at 2 4 6 8. change (h_ent (imhz z)) with (h_ent z).
    destruct (iset_swap_remove ent_eqb (h_ent z) rem) as [p rem'].
    replace (if p then map imhz add else map imhz add ++ [imhz z]) with (map imhz (if p then add else add ++ [z])) by (destruct p; [reflexivity|now rewrite map_app]).
    destruct (IH rem' (if p then add else add ++ [z])) as [E1 E2]. rewrite E1. split; [reflexivity|].
    intros Hl Ha. apply E2; [intros w Hw; apply Hl; now right|]. destruct p; [exact Ha|]. apply okhs_app; [exact Ha|apply okhs_one, Hl; now left].
  Qed.
  Lemma restore_im c s c' : okc c -> oks s -> cde_restore c s = Ok c' -> cde_restore (im_cde c) (im_snap s) = Ok (im_cde c') /\ okc c'.
  Proof.
    intros (Hq & Hs & Hd & Hu & Hb) Ho E. unfold cde_restore in *. cbn [cd_unc im_cde cd_qt cd_static cd_dyn cd_hpg cd_bbox opt_hpg sn_dyn im_snap].
    replace (map (@h_ent G D) (map imhz (cd_dyn c))) with (map (@h_ent F D) (cd_dyn c)) by (rewrite map_map; reflexivity).
    destruct (split_im (sn_dyn s) (iset_collect ent_eqb (map (@h_ent F D) (cd_dyn c))) []) as [S1 S2]. cbn [map] in S1. rewrite S1.
    destruct (fold_left restore_split (sn_dyn s) _) as [rem add]. cbn [fst snd] in *. specialize (S2 Ho (fun z Hz => match Hz with end)).
    (* removals *)
    set (g1 := fun p : node F D * list (hazard F D) => (im_node (fst p), map imhz (snd p))).
    destruct (rfold_sim g1 (fun e : entity D => e) (fun p => okn (fst p) /\ okhs (snd p)) restore_remove restore_remove rem (cd_qt c, cd_dyn c)) as [R1 R2].
    { split; assumption. }
    { intros [n dyn] e [Hn Hy] _. unfold restore_remove, g1. cbn [fst snd]. rewrite (position_im imhz (ent_is e)) by reflexivity.
      destruct (position _ dyn) as [i|]; cbn [expect rbind rmap]; [|split; [reflexivity|discriminate]].
      rewrite swap_remove_im. destruct (swap_remove i dyn) as [[z d]|] eqn:Es; cbn [option_map expect rbind rmap fst snd]; [|split; [reflexivity|discriminate]].
      destruct (dereg_im n e Hn) as [-> Hn']. split; [reflexivity|]. intros a' E'; inversion E'; subst. cbn. split; [exact Hn'|].
      eapply okhs_incl; [exact Hy|]. apply in_swap_remove in Es. apply Es. }
    rewrite map_idl in R1. change (g1 (cd_qt c, cd_dyn c)) with (im_node (cd_qt c), map imhz (cd_dyn c)) in R1. rewrite R1.
    destruct (rfold restore_remove rem _) as [[qt1 dyn1]|]; cbn [rmap rbind] in *; [|discriminate]. destruct (R2 _ eq_refl) as [Hq1 Hd1]. unfold g1. cbn [fst snd] in *. clear R1 R2.
    (* pending removals *)
    set (g2 := fun p : node F D * list (hazard F D) * list (hazard F D) => (im_node (fst (fst p)), map imhz (snd (fst p)), map imhz (snd p))).
    destruct (rfold_sim g2 imhz (fun p => okn (fst (fst p)) /\ okhs (snd (fst p)) /\ okhs (snd p)) restore_unc restore_unc (cd_unc c) (qt1, dyn1, add)) as [R1 R2].
    { split; [assumption|split; assumption]. }
    { intros [[n dyn] ad] u (Hn & Hy & Ha) Iu. unfold restore_unc, g2. cbn [fst snd] in *. change (h_ent (imhz u)) with (h_ent u).
      rewrite (position_im imhz (ent_is (h_ent u))) by reflexivity.
      destruct (position _ ad) as [i|].
      - rewrite swap_remove_im. destruct (swap_remove i ad) as [[z d]|] eqn:Es; cbn [option_map expect rbind rmap fst snd]; [|split; [reflexivity|discriminate]].
        destruct (activate_im n (h_ent u) Hn) as [-> Hn']. split; [now rewrite map_app|]. intros a' E'; inversion E'; subst. cbn. split; [exact Hn'|].
        split; [apply okhs_app; [exact Hy|apply okhs_one, Hu, Iu]|]. eapply okhs_incl; [exact Ha|]. apply in_swap_remove in Es. apply Es.
      - destruct (dereg_im n (h_ent u) Hn) as [-> Hn']. split; [reflexivity|]. intros a' E'; inversion E'; subst. cbn. tauto. }
    change (g2 (qt1, dyn1, add)) with (im_node qt1, map imhz dyn1, map imhz add) in R1. rewrite R1.
    destruct (rfold restore_unc (cd_unc c) _) as [[[qt2 dyn2] add2]|]; cbn [rmap rbind] in *; [|discriminate]. destruct (R2 _ eq_refl) as (Hq2 & Hd2 & Ha2). unfold g2. cbn [fst snd] in *. clear R1 R2.
    (* additions *)
    destruct (rfold_sim g1 imhz (fun p => okn (fst p) /\ okhs (snd p)) (restore_add (owned (cd_static c ++ dyn2 ++ add2)))
                (restore_add (owned (map imhz (cd_static c) ++ map imhz dyn2 ++ map imhz add2))) add2 (qt2, dyn2)) as [R1 R2].
    { split; assumption. }
    { intros [n dyn] z [Hn Hy] Iz. unfold restore_add, g1. cbn [fst snd].
      destruct (qt_register_im (owned (cd_static c ++ dyn2 ++ add2)) (owned (map imhz (cd_static c) ++ map imhz dyn2 ++ map imhz add2)) n z) as [Q1 Q2]; [|exact Hn|apply Ha2, Iz|].
      { intros p. rewrite <- !map_app. apply owned_im. }
      rewrite Q1. destruct (qt_register _ n z) as [n'|]; cbn [rmap rbind]; [|split; [reflexivity|discriminate]]. split; [cbn; now rewrite map_app|].
      intros a' E'; inversion E'; subst. cbn. split; [apply Q2; reflexivity|]. apply okhs_app; [exact Hy|apply okhs_one, Ha2, Iz]. }
    change (g1 (qt2, dyn2)) with (im_node qt2, map imhz dyn2) in R1. rewrite R1.
    destruct (rfold (restore_add _) add2 _) as [[qt3 dyn3]|]; cbn [rmap rbind] in *; [|discriminate]. destruct (R2 _ eq_refl) as [Hq3 Hd3]. unfold g1. cbn [fst snd] in *.
    destruct (opt_hpg _ (cd_hpg c)) as [g|]; cbn [rbind] in E; [|discriminate]. inversion E; subst. split; [reflexivity|]. five; cbn; try assumption. intros z [].
  Qed.

  Definition okop (o : op F D) : Prop := match o with OReg z => okhz z | _ => True end.
  Lemma step_im s o s' : okc (fst s) -> (forall k, In k (snd s) -> oks k) -> okop o -> step s o = Ok s' ->
    step (im_cde (fst s), map im_snap (snd s)) (im_op h o) = Ok (im_cde (fst s'), map im_snap (snd s')) /\
    okc (fst s') /\ (forall k, In k (snd s') -> oks k).
  Proof.
    destruct s as [c sn]. cbn [fst snd]. intros Hc Hk Ho E.
    destruct o as [z|e b| | | |k]; cbn [step im_op] in *.
    - destruct (cde_register c z) as [c1|] eqn:E1; cbn [rbind] in E; [|discriminate]. inversion E; subst.
      destruct (register_im _ _ _ Hc Ho E1) as [-> H]. cbn. auto.
    - destruct (cde_deregister c e b) as [c1|] eqn:E1; cbn [rbind] in E; [|discriminate]. inversion E; subst.
      destruct (deregister_im _ _ _ _ Hc E1) as [-> H]. cbn. auto.
    - destruct (cde_commit c) as [c1|] eqn:E1; cbn [rbind] in E; [|discriminate]. inversion E; subst.
      destruct (commit_im _ _ Hc E1) as [-> H]. cbn. auto.
    - destruct (cde_flush c) as [c1|] eqn:E1; cbn [rbind] in E; [|discriminate]. inversion E; subst.
      destruct (flush_im _ _ Hc E1) as [-> H]. cbn. auto.
    - destruct (cde_snapshot c) as [[s1 c1]|] eqn:E1; cbn [rbind] in E; [|discriminate]. inversion E; subst.
      destruct (snapshot_im _ _ _ Hc E1) as (-> & H & H'). cbn. rewrite map_app. split; [reflexivity|]. split; [exact H|].
      intros k Hin. apply in_app_or in Hin. destruct Hin as [|[<-|[]]]; auto.
    - rewrite nth_error_map. destruct (nth_error sn k) as [s1|] eqn:En; cbn [expect rbind option_map] in *; [|discriminate].
      destruct (cde_restore c s1) as [c1|] eqn:E1; cbn [rbind] in E; [|discriminate]. inversion E; subst.
      apply nth_error_In in En. destruct (restore_im _ _ _ Hc (Hk _ En) E1) as [-> H]. cbn. auto.
  Qed.
  Lemma steps_im ops : forall s s', okc (fst s) -> (forall k, In k (snd s) -> oks k) -> (forall o, In o ops -> okop o) -> rfold step ops s = Ok s' ->
    rfold step (map (im_op h) ops) (im_cde (fst s), map im_snap (snd s)) = Ok (im_cde (fst s'), map im_snap (snd s')) /\ okc (fst s').
  Proof.
    induction ops as [|o ops IH]; intros s s' Hc Hk Ho E; cbn [rfold map] in *; [inversion E; subst; auto|].
    destruct (step s o) as [s1|] eqn:E1; cbn [rbind] in E; [|discriminate].
    destruct (step_im s o s1 Hc Hk (Ho _ (or_introl eq_refl)) E1) as (-> & H1 & H2). cbn [rbind]. apply IH; auto. intros o' Hin; apply Ho; now right.
  Qed.
  Lemma engine_im bb statics depth n_cells ops c sn : okcell depth bb -> okhs statics -> (forall o, In o ops -> okop o) ->
    engine bb statics depth n_cells ops = Ok (c, sn) ->
    engine (imrc bb) (map imhz statics) depth 0 (map (im_op h) ops) = Ok (im_cde c, map im_snap sn) /\ okc c.
  Proof.
    intros Hb Hs Ho E. unfold engine in *. destruct (cde_new bb statics depth n_cells) as [c0|] eqn:E0; cbn [rbind] in E; [|discriminate].
    destruct (new_im _ _ _ _ _ Hb Hs E0) as [-> H0]. cbn [rbind].
    exact (steps_im ops (c0, []) (c, sn) H0 (fun k (F : In k []) => match F with end) Ho E).
  Qed.

  (** *** questions *)
  Lemma cd_alive_im c p : cd_alive (im_cde c) p = cd_alive c p.
  Proof. unfold cd_alive. cbn [im_cde cd_static cd_dyn cd_unc]. rewrite <- !map_app. apply owned_im. Qed.
  Lemma collides_ext alive alive' (n : node F D) q irr : (forall p, alive p = alive' p) -> node_collides alive n q irr = node_collides alive' n q irr.
  Proof.
    intros E. assert (P : forall p, partial_collides alive q p = partial_collides alive' q p) by (intros p; unfold partial_collides, shape_arc; now rewrite E).
    induction n as [l b v|l b v c0 c1 c2 c3 H0 H1 H2 H3] using node_ind4; cbn [node_collides].
    - destruct (strongest v irr) as [[s|]|]; cbn; try reflexivity. destruct (qy_rect q b); [|reflexivity]. destruct (q_pres s); try reflexivity.
      destruct (active_hazards v) as [l0|]; cbn; [|reflexivity].
      rewrite <- (map_idl (filter _ l0)) at 1. rewrite (rfind_im (fun x => x) (fun hz => match q_pres hz with PNone => Ok false | PPartial p => partial_collides alive' q p | PEntire => Panic end)).
      + match goal with |- context [rmap _ ?Y] => destruct Y as [[?|]|] end; reflexivity.
      + intros x _. destruct (q_pres x); auto.
    - rewrite H0, H1, H2, H3. reflexivity.
  Qed.
  Lemma collect_ext alive alive' (n : node F D) q : (forall p, alive p = alive' p) -> forall det, node_collect alive n q det = node_collect alive' n q det.
  Proof.
    intros E. assert (P : forall p, partial_collides alive q p = partial_collides alive' q p) by (intros p; unfold partial_collides, shape_arc; now rewrite E).
    induction n as [l b v|l b v c0 c1 c2 c3 H0 H1 H2 H3] using node_ind4; intros det; cbn [node_collect].
    - destruct (strongest v det) as [[s|]|]; cbn; try reflexivity. destruct (qy_rect q b); [|reflexivity]. destruct (q_pres s); try reflexivity.
      destruct (active_hazards v) as [l0|]; cbn; [|reflexivity]. generalize det. induction l0 as [|x l0 IH]; intros d; cbn; [reflexivity|].
      replace (match q_pres x with PNone => Ok d | PPartial p0 => b0 <- partial_collides alive q p0 ;; Ok (if b0 then d ++ [q_ent x] else d) | PEntire => Panic end)
        with (match q_pres x with PNone => Ok d | PPartial p0 => b0 <- partial_collides alive' q p0 ;; Ok (if b0 then d ++ [q_ent x] else d) | PEntire => Panic end)
        by (destruct (q_pres x); rewrite ?P; reflexivity).
      match goal with |- context [rbind ?Y _] => destruct Y end; cbn; auto.
    - destruct (strongest v det) as [[s|]|]; cbn; try reflexivity. destruct (qy_rect q b); [|reflexivity]. destruct (q_pres s); try reflexivity.
      rewrite H0. destruct (node_collect alive' c0 q det) as [d0|]; cbn; [|reflexivity].
      rewrite H1. destruct (node_collect alive' c1 q d0) as [d1|]; cbn; [|reflexivity].
      rewrite H2. destruct (node_collect alive' c2 q d1) as [d2|]; cbn; [|reflexivity]. apply H3.
  Qed.
  Lemma qt_hit_im c q q' irr : okc c -> same_query q q' -> qt_hit (im_cde c) irr q' = qt_hit c irr q.
  Proof.
    intros Hc Hq. unfold qt_hit. cbn [cd_qt im_cde]. rewrite (collides_im _ q q') by (exact Hq || apply Hc).
    rewrite (collides_ext _ (cd_alive c)) by apply cd_alive_im. reflexivity.
  Qed.
  Lemma qt_collect_im c q q' det : okc c -> same_query q q' -> qt_collect (im_cde c) q' det = qt_collect c q det.
  Proof.
    intros Hc Hq. unfold qt_collect. cbn [cd_qt im_cde]. rewrite (collect_im _ q q') by (exact Hq || apply Hc).
    apply collect_ext, cd_alive_im.
  Qed.
  Lemma contained_im c s z : okc c -> okpoly s -> okhz z -> are_contained (im_cde c) (impo s) (imhz z) = are_contained c s z.
  Proof.
    intros Hc Hs Hz. unfold are_contained. cbn [h_shape im_hazard a_obj im_arc h_ent p_bbox im_poly p_poi im_circle ccen cd_qt im_cde].
    rewrite H_arel by (apply Hz || apply Hs). change (Pt (h (px (ccen (p_poi s)))) (h (py (ccen (p_poi s))))) with (impt (ccen (p_poi s))).
    change (Pt (h (px (ccen (p_poi (a_obj (h_shape z)))))) (h (py (ccen (p_poi (a_obj (h_shape z))))))) with (impt (ccen (p_poi (a_obj (h_shape z))))).
    destruct (almost_relation_to _ _); try reflexivity.
    - change (Poly (map impt (p_pts s)) (imrc (p_bbox s)) (h (p_area s)) (h (p_diam s)) (im_circle h (p_poi s)) (option_map (im_surr h) (p_surr s))) with (impo s).
      rewrite H_pp by (exact Hs || apply Hz). reflexivity.
    - rewrite (definitely_with_im (fun r => rp_collides r (ccen (p_poi s)))) by ((intros r Hr; apply H_rp; [exact Hr|apply Hs]) || apply Hc).
      destruct (node_definitely_with _ _ _) as [t|]; cbn [rbind]; [|reflexivity]. destruct t; try reflexivity.
      rewrite H_pp by (exact Hz || apply Hs). reflexivity.
  Qed.
  Lemma ask_poly_im c s irr : okc c -> okpoly s -> ask (im_cde c) (AskPoly (impo s) irr) = ask c (AskPoly s irr).
  Proof.
    intros Hc Hs. cbn [ask]. unfold poly_collides. cbn [cd_bbox im_cde p_bbox im_poly]. rewrite H_rel by (apply Hc || apply Hs).
    destruct (relation_to _ _); try reflexivity.
    replace (by_edge_intersection (im_cde c) (impo s) irr) with (by_edge_intersection c s irr).
    - destruct (by_edge_intersection c s irr) as [[|]|]; cbn [rbind]; try reflexivity.
      unfold by_containment, all_hazards. cbn [cd_static cd_dyn im_cde]. rewrite <- map_app.
      rewrite (filter_im imhz (fun z => h_active z && negb (memb ent_eqb (h_ent z) irr))) by reflexivity.
      rewrite (rany_im imhz (are_contained c s)); [reflexivity|]. intros z Hz. apply contained_im; [exact Hc|exact Hs|].
      apply filter_In in Hz. destruct Hz as [Hz _]. destruct Hc as (_ & H1 & H2 & _). apply in_app_or in Hz. destruct Hz; auto.
    - unfold by_edge_intersection. rewrite idx_im. symmetry. apply rany_ext. intros i _. rewrite edge_im by exact Hs.
      destruct (get_edge s i) as [e|] eqn:E; cbn [rmap rbind]; [|reflexivity]. apply qt_hit_im; [exact Hc|]. apply edge_query_im. eapply edge_ok; eassumption.
  Qed.
  Lemma ask_edge_im c e irr : okc c -> oke e -> ask (im_cde c) (AskEdge (imed e) irr) = ask c (AskEdge e irr) /\
    ask (im_cde c) (AskQuery (edge_query (imed e)) irr) = ask c (AskQuery (edge_query e) irr).
  Proof.
    intros Hc He. split; cbn [ask].
    - unfold edge_definitely. cbn [es ee im_edge cd_bbox im_cde cd_qt].
      rewrite !H_rp by (apply Hc || apply He). destruct (_ || _); [reflexivity|].
      apply definitely_im; [|apply Hc]. intros r Hr. apply (edge_query_im e He). exact Hr.
    - rewrite (qt_hit_im c (edge_query e)) by (exact Hc || apply edge_query_im, He). reflexivity.
  Qed.
  Lemma ask_point_im c p e : okc c -> okp p -> ask (im_cde c) (AskPoint (impt p) e) = ask c (AskPoint p e).
  Proof.
    intros Hc Hp. cbn [ask]. unfold point_definitely. cbn [cd_bbox im_cde cd_qt]. rewrite H_rp by (exact Hp || apply Hc).
    destruct (rp_collides _ p); [|reflexivity]. apply definitely_with_im; [|apply Hc]. intros r Hr. apply H_rp; assumption.
  Qed.
  Lemma collect_poly_im c s irr buf : okc c -> okpoly s -> collect (im_cde c) (CollPoly (impo s)) irr buf = collect c (CollPoly s) irr buf.
  Proof.
    intros Hc Hs. cbn [collect]. unfold collect_poly. rewrite idx_im.
    match goal with |- rbind ?X _ = rbind ?Y _ => assert (E : X = Y) end.
    { match goal with |- rfold ?f' ?l ?a = rfold ?f _ _ => destruct (rfold_sim (fun d : list (entity D) => d) (fun i : nat => i) (fun _ => True) f f' l a Logic.I) as [R _] end.
      - intros d i _ _. split; [|intros; exact Logic.I]. rewrite edge_im by exact Hs.
        destruct (get_edge s i) as [e|] eqn:E; cbn [rmap rbind]; [|reflexivity].
        rewrite (qt_collect_im c (edge_query e)) by (exact Hc || apply edge_query_im; eapply edge_ok; eassumption).
        destruct (qt_collect c _ d); reflexivity.
      - rewrite map_idl in R. rewrite R. match goal with |- rmap _ ?Y = _ => destruct Y; reflexivity end. }
    rewrite E. match goal with |- rbind ?Y _ = _ => destruct Y as [d1|] end; cbn [rbind]; [|reflexivity].
    unfold all_hazards. cbn [cd_static cd_dyn im_cde]. rewrite <- map_app.
    rewrite (filter_im imhz (fun z => h_active z)) by reflexivity.
    match goal with |- rbind ?X _ = rbind ?Y _ => assert (E' : X = Y) end.
    { match goal with |- rfold ?f' (map imhz ?l) ?a = rfold ?f _ _ => destruct (rfold_sim (fun d : list (entity D) => d) imhz (fun _ => True) f f' l a Logic.I) as [R _] end.
      - intros d z _ Hz. split; [|intros; exact Logic.I]. unfold collect_contained. change (h_ent (imhz z)) with (h_ent z).
        destruct (memb ent_eqb (h_ent z) d); [reflexivity|]. rewrite contained_im; [destruct (are_contained c s z) as [[|]|]; reflexivity|exact Hc|exact Hs|].
        apply filter_In in Hz. destruct Hz as [Hz _]. destruct Hc as (_ & H1 & H2 & _). apply in_app_or in Hz. destruct Hz; auto.
      - rewrite R. match goal with |- rmap _ ?Y = _ => destruct Y; reflexivity end. }
    rewrite E'. reflexivity.
  Qed.

  (** *** histories *)
  Lemma facts_im statics ops : facts (map imhz statics) (map (im_op h) ops) = map (im_fact h) (facts statics ops).
  Proof.
    unfold facts. rewrite map_app, map_map. f_equal; [rewrite map_map; reflexivity|].
    unfold dynamic_facts.
    assert (S : forall ops A sv, fold_left astep (map (im_op h) ops) (map (im_fact h) A, map (map (im_fact h)) sv) =
      (map (im_fact h) (fst (fold_left astep ops (A, sv))), map (map (im_fact h)) (snd (fold_left astep ops (A, sv))))).
    { clear ops. induction ops as [|o ops IH]; intros A sv; cbn [map fold_left]; [reflexivity|]. destruct o as [z|e b| | | |k]; cbn [im_op astep].
      - apply (IH (fact_of z :: A) sv).
      - rewrite <- IH. f_equal. f_equal. unfold without. apply filter_im. intros f _. reflexivity.
      - apply IH.
      - apply IH.
      - rewrite <- IH, map_app. reflexivity.
      - rewrite <- IH. f_equal. f_equal. change (@nil (fact G D)) with (map (im_fact (D := D) h) []). rewrite map_nth. reflexivity. }
    specialize (S ops [] []). cbn [map] in S. rewrite S. reflexivity.
  Qed.
  Lemma good_poly_im s : okpoly s -> good_poly s -> good_poly (impo s).
  Proof. intros Hs H i Hi. rewrite npts_im in Hi. destruct (H i Hi) as [e E]. exists (imed e). rewrite edge_im, E by exact Hs. reflexivity. Qed.
  Lemma valid_im statics ops : okhs statics -> (forall o, In o ops -> okop o) -> valid statics ops -> valid (map imhz statics) (map (im_op h) ops).
  Proof.
    intros Hs Ho [[G1 G2] [shp V]]. split.
    - split; [|rewrite map_map; exact G2]. rewrite Forall_forall in *. intros z Hz. apply in_map_iff in Hz. destruct Hz as (y & <- & Hy). apply good_poly_im; [apply Hs, Hy|apply G1, Hy].
    - exists (fun e => (impo (fst (shp e)), snd (shp e))).
      assert (S : forall ops A sv, (forall o, In o ops -> okop o) -> ops_ok shp statics (A, sv) ops ->
        ops_ok (fun e => (impo (fst (shp e)), snd (shp e))) (map imhz statics) (map (im_fact h) A, map (map (im_fact h)) sv) (map (im_op h) ops)).
      { clear ops Ho V. induction ops as [|o ops IH]; intros A sv Ho V; cbn [map ops_ok] in *; [exact Logic.I|].
        destruct V as [V1 V2]. assert (Ho' : forall o', In o' ops -> okop o') by (intros o' Hin; apply Ho; now right).
        pose proof (Ho o (or_introl eq_refl)) as Hoo. split.
        - destruct o as [z|e b| | | |k]; cbn [im_op op_ok fst snd] in *; try exact Logic.I.
          + destruct V1 as (W1 & W2 & W3 & W4). split; [apply good_poly_im; assumption|]. split.
            * unfold denotes in *. cbn. rewrite W2. reflexivity.
            * split; [rewrite map_map; exact W3|]. rewrite map_map. exact W4.
          + rewrite map_map. exact V1.
          + rewrite map_length. exact V1.
        - specialize (IH (fst (astep (A, sv) o)) (snd (astep (A, sv) o)) Ho'). rewrite <- surjective_pairing in IH. specialize (IH V2).
          replace (astep (map (im_fact h) A, map (map (im_fact h)) sv) (im_op h o)) with (map (im_fact h) (fst (astep (A, sv) o)), map (map (im_fact h)) (snd (astep (A, sv) o))); [exact IH|].
          destruct o as [z|e b| | | |k]; cbn [im_op astep fst snd]; try reflexivity.
          + f_equal. symmetry. unfold without. apply filter_im. intros f _. reflexivity.
          + rewrite map_app. reflexivity.
          + f_equal. change (@nil (fact G D)) with (map (im_fact (D := D) h) []). rewrite map_nth. reflexivity. }
      apply (S ops [] [] Ho V).
  Qed.
End Sim.
