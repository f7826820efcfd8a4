(** Simplifying polygons commutes with moving them (exact arithmetic). *)
From Coq Require Import List Bool Arith Lia.
From Verif Require Import Base Num GeoModel HazardModel TransfModel PolyModel HpgModel CdeModel LayoutModel SimplModel IoModel ParseModel
  BaseProofs ParityProofs RigidProofs NormProofs ShiftProofs.
From Coq Require Import Reals Lra.
From Verif Require Import GeoModel HazardModel TransfModel PolyModel SimplModel GeoSpec ShapeSpec ParseModel ShiftSpec.
Import ListNotations.
Local Open Scope R_scope.
#[local] Existing Instance RNum.

Section S.
  Variables dx dy : R.
  Local Notation Sp := (shifted dx dy).
  Local Notation Se := (moved_edge dx dy).
  Local Notation Ss := (moved_poly dx dy).
  Ltac un := cbn [fadd fsub fmul fdiv fneg fabs fmin fmax fle flt feq fsqrt falmost f0 f1 RNum RNumT] in *.
  Lemma sh_vertex : forall l i, vertex (map Sp l) i = rmap Sp (vertex l i).
  Proof. intros l i. unfold vertex. rewrite nth_error_map. destruct (nth_error l i); reflexivity. Qed.
  Ltac vtx := match goal with |- context [vertex (map Sp ?l) ?i] => rewrite (sh_vertex l i); destruct (vertex l i); [cbn [rmap rbind]|reflexivity] end.
  Lemma sh_type : forall l c, type_at (map Sp l) c = type_at l c.
  Proof.
    intros l c. unfold type_at. do 3 vtx. f_equal. unfold corner_type_of, shifted. cbn [px py]. un. rewrite !sub_sh. reflexivity.
  Qed.
  Lemma sh_cands_from : forall l cs p t, candidates_from (map Sp l) p t cs = candidates_from l p t cs.
  Proof. intros l cs. induction cs as [|c cs IH]; intros p t; [reflexivity|]. cbn [candidates_from]. rewrite sh_type. destruct (type_at l c); [|reflexivity]. cbn [rbind]. rewrite IH. reflexivity. Qed.
  Lemma sh_cands : forall m l, candidates_of m (map Sp l) = candidates_of m l.
  Proof.
    intros m l. unfold candidates_of. rewrite map_length. destruct (expect _) as [p|]; [|reflexivity]. cbn [rbind]. rewrite sh_type.
    destruct (type_at l p); [|reflexivity]. cbn [rbind]. apply sh_cands_from.
  Qed.
  Lemma sh_front : forall e f, intersection_in_front (Se e) (Se f) = option_map Sp (intersection_in_front e f).
  Proof.
    intros e f. unfold intersection_in_front, moved_edge, shifted. cbn [es ee px py]. un. rewrite !sub_sh.
    match goal with |- (if ?b then _ else _) = _ => destruct b end; [|reflexivity]. cbn [option_map px py]. do 2 f_equal; ring.
  Qed.
  Lemma sh_edge' : forall a b, edge_new (Sp a) (Sp b) = rmap Se (edge_new a b).
  Proof. exact (sh_edge_new dx dy). Qed.
  Ltac edg := match goal with |- context [edge_new (Sp ?a) (Sp ?b)] => rewrite (sh_edge' a b); destruct (edge_new a b); [cbn [rmap rbind]|reflexivity] end.
  Lemma sh_replacing : forall l c1 c2, replacing_vertex (map Sp l) c1 c2 = rmap (option_map Sp) (replacing_vertex l c1 c2).
  Proof.
    intros l c1 c2. unfold replacing_vertex. destruct (rassert _); [|reflexivity]. cbn [rbind]. destruct (rassert _); [|reflexivity]. cbn [rbind].
    vtx. vtx. edg. vtx. vtx. edg. rewrite sh_front. reflexivity.
  Qed.
  Lemma sh_tri : forall a b c, tri_area (Sp a) (Sp b) (Sp c) = tri_area a b c.
  Proof. intros a b c. unfold tri_area, shifted, f2. cbn [px py]. un. f_equal. f_equal. ring. Qed.
  Lemma sh_delta : forall l c, area_delta (map Sp l) c = area_delta l c.
  Proof.
    intros l [c|c1 c2|c]; cbn [area_delta]; [do 3 vtx; rewrite sh_tri; reflexivity| |reflexivity].
    rewrite sh_replacing. destruct (replacing_vertex l c1 c2) as [[v|]|]; cbn [rmap rbind option_map]; try reflexivity. do 2 vtx. rewrite sh_tri. reflexivity.
  Qed.
  Lemma sh_affected : forall ps p, affected (map Sp ps) (Sp p) = affected ps p.
  Proof. intros ps p. unfold affected. induction ps as [|q ps IH]; [reflexivity|]. cbn [map existsb]. rewrite (sh_eq dx dy), IH. reflexivity. Qed.
  Lemma rany_same : forall {A} (f g : A -> res bool) l, (forall x, f x = g x) -> rany f l = rany g l.
  Proof. intros A f g l H. induction l as [|x l IH]; [reflexivity|]. cbn [rany]. rewrite H, IH. reflexivity. Qed.
  Lemma rfind_same : forall {A} (f g : A -> res bool) l, (forall x, f x = g x) -> rfind f l = rfind g l.
  Proof. intros A f g l H. induction l as [|x l IH]; [reflexivity|]. cbn [rfind]. rewrite H, IH. reflexivity. Qed.
  Lemma sh_hits : forall l ps news, some_edge_hits (map Sp l) (map Sp ps) (map Se news) = some_edge_hits l ps news.
  Proof.
    intros l ps news. unfold some_edge_hits. rewrite map_length. apply rany_same. intros i. vtx. vtx. edg. f_equal.
    match goal with |- context [es (Se ?e)] => change (es (Se e)) with (Sp (es e)); change (ee (Se e)) with (Sp (ee e)) end. rewrite !sh_affected. f_equal.
    induction news as [|n news IH]; [reflexivity|]. cbn [map existsb]. rewrite (sh_ee dx dy), IH. reflexivity.
  Qed.
  Lemma sh_valid : forall l c, candidate_is_valid (map Sp l) c = candidate_is_valid l c.
  Proof.
    intros l [c|c1 c2|c]; cbn [candidate_is_valid]; [| |reflexivity].
    - vtx. vtx. edg. vtx. f_equal. match goal with |- some_edge_hits _ [Sp ?a; Sp ?b; Sp ?d] [Se ?e] = _ => exact (sh_hits l [a; b; d] [e]) end.
    - rewrite sh_replacing. destruct (replacing_vertex l c1 c2) as [[v|]|]; cbn [rmap rbind option_map]; try reflexivity.
      vtx. edg. vtx. edg. vtx. vtx. f_equal. match goal with |- some_edge_hits _ [Sp ?a; Sp ?b; Sp ?d; Sp ?d'] [Se ?e; Se ?e'] = _ => exact (sh_hits l [a; b; d; d'] [e; e']) end.
  Qed.
  Lemma remove_map : forall {A B} (f : A -> B) l i, remove_at i (map f l) = rmap (map f) (remove_at i l).
  Proof. intros A B f l. induction l as [|x l IH]; intros [|i]; try reflexivity. cbn [map remove_at]. rewrite IH. destruct (remove_at i l); reflexivity. Qed.
  Lemma insert_map : forall {A B} (f : A -> B) i a l, insert_at i (f a) (map f l) = rmap (map f) (insert_at i a l).
  Proof. intros A B f i a. induction i as [|i IH]; intros [|x l]; try reflexivity. cbn [map insert_at]. rewrite IH. destruct (insert_at i a l); reflexivity. Qed.
  Lemma sh_execute : forall l c, execute_candidate (map Sp l) c = rmap (map Sp) (execute_candidate l c).
  Proof.
    intros l [c|c1 c2|c]; cbn [execute_candidate]; [apply remove_map| |apply remove_map].
    rewrite sh_replacing. destruct (replacing_vertex l c1 c2) as [[v|]|]; cbn [rmap rbind option_map expect]; try reflexivity.
    rewrite remove_map. destruct (remove_at (c_mid c1) l) as [l1|]; [|reflexivity]. cbn [rmap rbind]. rewrite remove_map.
    destruct (remove_at _ l1) as [l2|]; [|reflexivity]. cbn [rmap rbind]. apply insert_map.
  Qed.
  Lemma sh_best : forall m l, best_candidate m (map Sp l) = best_candidate m l.
  Proof.
    intros m l. unfold best_candidate. rewrite sh_cands. destruct (candidates_of m l) as [cs|]; [|reflexivity]. cbn [rbind].
    rewrite (rmapM_same _ (fun c => k <- area_delta l c ;; Ok (k, c)) cs) by (intros c _; rewrite sh_delta; reflexivity).
    destruct (rmapM _ cs) as [ks|]; [|reflexivity]. cbn [rbind]. rewrite (rfind_same _ (fun kc => candidate_is_valid l (snd kc))) by (intros c; apply sh_valid). reflexivity.
  Qed.
  Lemma sh_rounds : forall n m o d l, simpl_rounds n m o d (map Sp l) = rmap (map Sp) (simpl_rounds n m o d l).
  Proof.
    induction n as [|n IH]; intros m o d l; [reflexivity|]. cbn [simpl_rounds]. rewrite map_length. destruct (Nat.ltb (length l) 4); [reflexivity|].
    rewrite sh_best. destruct (best_candidate m l) as [[c|]|]; cbn [rbind]; try reflexivity. rewrite sh_execute.
    destruct (execute_candidate l c) as [l'|]; [|reflexivity]. cbn [rmap rbind]. rewrite (sh_area dx dy).
    match goal with |- (if ?b then _ else _) = _ => destruct b end; [apply IH|reflexivity].
  Qed.
  Theorem sh_simplify : forall s m d, simplify_shape (Ss s) m d = rmap Ss (simplify_shape s m d).
  Proof.
    intros s m d. unfold simplify_shape, n_points. cbn [moved_poly p_pts p_area]. rewrite map_length, sh_rounds.
    destruct (simpl_rounds _ _ _ _ _) as [l|]; [|reflexivity]. cbn [rmap rbind]. apply sh_poly_new.
  Qed.
End S.
