(** Polygon simplification: every round drops or merges vertices as documented, picks
    the smallest change among the valid candidates, and never moves the area the wrong
    way. *)
From Coq Require Import Reals List Bool Arith Lra Lia Psatz Permutation Sorted.
From Verif Require Import Base Num GeoModel HazardModel TransfModel PolyModel SimplModel GeoSpec ShapeSpec SimplSpec PlaceSpec
  BaseProofs ParityProofs GeoPrimProofs GeoRectProofs PipProofs RigidProofs XformProofs NormProofs.
Import ListNotations.
Local Open Scope R_scope.
#[local] Existing Instance RNum.

Lemma remove_mid : forall {A} (x : list A) p y, remove_at (length x) (x ++ p :: y) = Ok (x ++ y).
Proof. intros A x p y. induction x as [|a x IH]; cbn; [reflexivity|]. rewrite IH. reflexivity. Qed.
Lemma insert_mid : forall {A} (x : list A) p y, insert_at (length x) p (x ++ y) = Ok (x ++ p :: y).
Proof. intros A x p y. induction x as [|a x IH]; cbn; [destruct y; reflexivity|]. rewrite IH. reflexivity. Qed.
Lemma remove_split : forall {A} i (l l' : list A), remove_at i l = Ok l' -> exists x p y, l = x ++ p :: y /\ length x = i /\ l' = x ++ y.
Proof.
  intros A i l. revert i. induction l as [|a l IH]; intros [|i] l' H; cbn in H; try discriminate.
  - injection H as <-. exists [], a, l. auto.
  - destruct (remove_at i l) as [r|] eqn:E; [|discriminate]. cbn in H. injection H as <-.
    destruct (IH i r E) as (x & p & y & -> & L & ->). exists (a :: x), p, y. cbn. auto.
Qed.
Lemma split_nth : forall {A} (l : list A) i p, nth_error l i = Some p -> exists x y, l = x ++ p :: y /\ length x = i.
Proof. intros A l i p H. apply nth_error_split in H. exact H. Qed.
Lemma cyc_refl : forall {A} (l : list A), cyclic l l.
Proof. intros A l. exists [], l. rewrite app_nil_r. auto. Qed.
Lemma cyc_mid : forall {A} (x : list A) y, cyclic (x ++ y) (y ++ x).
Proof. intros A x y. exists x, y. auto. Qed.

(** neighbours *)
Definition pv (n i : nat) : nat := if Nat.eqb i 0 then Nat.pred n else Nat.pred i.
Definition nx (n i : nat) : nat := if Nat.eqb (S i) n then 0%nat else S i.
Definition corner_at (n i : nat) : corner := Cn (pv n i) i (nx n i).
Lemma nx_lt : forall n i, (i < n)%nat -> (nx n i < n)%nat.
Proof. intros n i H. unfold nx. destruct (Nat.eqb_spec (S i) n); lia. Qed.
Lemma pv_nx : forall n i, (i < n)%nat -> pv n (nx n i) = i.
Proof. intros n i H. unfold pv, nx. destruct (Nat.eqb_spec (S i) n); cbn; lia. Qed.
Lemma corners_inflate : forall n, corners_of Inflate n = map (corner_at n) (seq 0 n).
Proof. reflexivity. Qed.
Lemma corners_deflate : forall n, corners_of Deflate n = map c_flip (rev (map (corner_at n) (seq 0 n))).
Proof. reflexivity. Qed.
Lemma vertex_ok : forall (l : list rpoint) i p, vertex l i = Ok p <-> nth_error l i = Some p.
Proof. intros l i p. unfold vertex. destruct (nth_error l i); cbn; split; congruence. Qed.

Lemma ends_of : forall {A} (r : list A), (2 <= length r)%nat -> exists b m a, r = b :: m ++ [a].
Proof.
  intros A [|b r] H; cbn in H; [lia|]. destruct (@exists_last _ r) as (m & a & ->); [destruct r; [cbn in H; lia|discriminate]|]. eauto.
Qed.
(** around vertex [i] *)
Lemma around : forall {A} (x : list A) p y, (3 <= length (x ++ p :: y))%nat -> let l := x ++ p :: y in let n := length l in
  exists b m a, y ++ x = b :: m ++ [a] /\ nth_error l (pv n (length x)) = Some a /\ nth_error l (nx n (length x)) = Some b.
Proof.
  intros A x p y H l n. assert (Hn : n = (length x + S (length y))%nat) by (unfold n, l; rewrite app_length; reflexivity).
  destruct (ends_of (y ++ x)) as (b & m & a & E); [rewrite app_length in *; cbn in H; lia|].
  exists b, m, a. split; [exact E|]. split.
  - unfold pv. destruct (Nat.eqb_spec (length x) 0) as [Z|Z].
    + destruct x; [|discriminate]. rewrite app_nil_r in E. unfold l, n. cbn [app length Nat.pred]. subst y.
      rewrite app_comm_cons. rewrite app_comm_cons. rewrite nth_error_app2; [|cbn; rewrite app_length; cbn; lia].
      cbn. rewrite app_length; cbn. replace (length m + 1 - S (length m))%nat with 0%nat by lia. reflexivity.
    + destruct (@exists_last _ x) as (x' & a' & ->); [destruct x; [cbn in Z; lia|discriminate]|].
      assert (a' = a).
      { rewrite app_assoc in E. rewrite app_comm_cons in E. apply app_inj_tail in E as (_ & ->). reflexivity. }
      subst a'. rewrite app_length. cbn. replace (Nat.pred (length x' + 1)) with (length x') by lia.
      unfold l. rewrite <- app_assoc. rewrite nth_error_app2 by lia. rewrite Nat.sub_diag. reflexivity.
  - unfold nx. destruct (Nat.eqb_spec (S (length x)) n) as [Z|Z].
    + assert (y = []) by (destruct y; [reflexivity|cbn in Hn; lia]). subst y. cbn in E. unfold l. rewrite E. reflexivity.
    + destruct y as [|b' y]; [cbn in Hn; lia|]. cbn in E. injection E as -> E. unfold l.
      rewrite nth_error_app2 by lia. replace (S (length x) - length x)%nat with 1%nat by lia. reflexivity.
Qed.
Lemma drop_cyclic : forall (l l' : list rpoint) i a p b, (3 <= length l)%nat -> remove_at i l = Ok l' ->
  nth_error l (pv (length l) i) = Some a -> nth_error l i = Some p -> nth_error l (nx (length l) i) = Some b ->
  exists r, cyclic l (p :: b :: r ++ [a]) /\ cyclic l' (b :: r ++ [a]).
Proof.
  intros l l' i a p b L E Ea Ep Eb. destruct (remove_split _ _ _ E) as (x & p' & y & -> & <- & ->).
  rewrite nth_error_app2, Nat.sub_diag in Ep by lia. injection Ep as ->.
  destruct (around x p y L) as (b' & m & a' & E' & Ea' & Eb'). rewrite Ea' in Ea. rewrite Eb' in Eb. injection Ea as ->. injection Eb as ->.
  exists m. rewrite <- E'. split; [exact (cyc_mid x (p :: y))|apply cyc_mid].
Qed.
Definition swap_out (l : list rpoint) (i j : nat) (v : rpoint) : res (list rpoint) :=
  l1 <- remove_at i l ;;
  let other := if Nat.ltb i j then Nat.pred j else j in
  l2 <- remove_at other l1 ;; insert_at other v l2.
Lemma swap_mid : forall x a b y v, let l := x ++ a :: b :: y in let i := length x in
  swap_out l i (S i) v = Ok (x ++ v :: y) /\ swap_out l (S i) i v = Ok (x ++ v :: y).
Proof.
  intros x a b y v l i. unfold swap_out, l, i. split.
  - rewrite remove_mid. cbn [rbind]. replace (Nat.ltb (length x) (S (length x))) with true by (symmetry; apply Nat.ltb_lt; lia).
    cbn [Nat.pred]. rewrite remove_mid. cbn [rbind]. apply insert_mid.
  - replace (x ++ a :: b :: y) with ((x ++ [a]) ++ b :: y) by (rewrite <- app_assoc; reflexivity).
    replace (S (length x)) with (length (x ++ [a])) by (rewrite app_length; cbn; lia). rewrite remove_mid. cbn [rbind].
    replace (Nat.ltb (length (x ++ [a])) (length x)) with false by (symmetry; apply Nat.ltb_ge; rewrite app_length; lia).
    rewrite <- app_assoc. cbn [app]. rewrite remove_mid. cbn [rbind]. apply insert_mid.
Qed.
Lemma swap_wrap : forall x a b v, let l := b :: x ++ [a] in let i := S (length x) in
  swap_out l i 0 v = Ok (v :: x) /\ swap_out l 0 i v = Ok (x ++ [v]).
Proof.
  intros x a b v l i. unfold swap_out, l, i. split.
  - change (b :: x ++ [a]) with ((b :: x) ++ a :: []). change (S (length x)) with (length (b :: x)). rewrite remove_mid. cbn [rbind].
    replace (Nat.ltb _ 0) with false by (symmetry; apply Nat.ltb_ge; lia). rewrite app_nil_r. reflexivity.
  - cbn [remove_at rbind]. change (Nat.ltb 0 (S (length x))) with true. cbn [Nat.pred]. rewrite remove_mid. cbn [rbind].
    apply insert_mid.
Qed.
Lemma merge_cyclic : forall (l l' : list rpoint) i j k a b a0 b0 v, (4 <= length l)%nat -> let n := length l in (i < n)%nat ->
  nth_error l (pv n i) = Some a0 -> nth_error l i = Some a -> nth_error l (nx n i) = Some b -> nth_error l (nx n (nx n i)) = Some b0 ->
  (j = i /\ k = nx n i) \/ (j = nx n i /\ k = i) -> swap_out l j k v = Ok l' ->
  exists r, cyclic l (a :: b :: b0 :: r ++ [a0]) /\ cyclic l' (v :: b0 :: r ++ [a0]).
Proof.
  intros l l' i j k a b a0 b0 v L n Hi Ea0 Ea Eb Eb0 Jk E.
  destruct (split_nth _ _ _ Ea) as (x & y & El & Lx). subst i.
  destruct (split_nth _ _ _ Eb) as (x2 & y2 & El2 & Lx2).
  assert (G : exists r0, cyclic l (a :: b :: r0) /\ cyclic l' (v :: r0) /\ y ++ x = b :: r0 /\ y2 ++ x2 = r0 ++ [a]).
  { unfold n, nx in Eb, Lx2, Jk. destruct (Nat.eqb_spec (S (length x)) (length l)) as [Z|Z].
    - assert (y = []) by (rewrite El, app_length in Z; cbn in Z; destruct y; [reflexivity|cbn in Z; lia]). subst y.
      destruct x as [|b' x]; [rewrite El in L; cbn in L; lia|]. rewrite El in Eb. cbn in Eb. injection Eb as ->.
      exists x. split; [rewrite El; exact (cyc_mid (b :: x) [a])|]. split.
      + rewrite El in E. destruct (swap_wrap x a b v) as (S1 & S2).
        destruct Jk as [(-> & ->)|(-> & ->)].
        * change (swap_out (b :: x ++ [a]) (S (length x)) 0 v = Ok l') in E. rewrite S1 in E. injection E as <-. apply cyc_refl.
        * change (swap_out (b :: x ++ [a]) 0 (S (length x)) v = Ok l') in E. rewrite S2 in E. injection E as <-. exact (cyc_mid x [v]).
      + split; [reflexivity|]. destruct x2; [|discriminate]. rewrite El in El2. cbn in El2. injection El2 as <-. apply app_nil_r.
    - rewrite El in Eb. rewrite nth_error_app2 in Eb by lia. replace (S (length x) - length x)%nat with 1%nat in Eb by lia.
      destruct y as [|b' y]; [discriminate|]. cbn in Eb. injection Eb as ->.
      exists (y ++ x). split; [rewrite El; exact (cyc_mid x (a :: b :: y))|]. split.
      + rewrite El in E. destruct (swap_mid x a b y v) as (S1 & S2).
        destruct Jk as [(-> & ->)|(-> & ->)]; [rewrite S1 in E|rewrite S2 in E]; injection E as <-; exact (cyc_mid x (v :: y)).
      + split; [reflexivity|]. assert (Q : x2 = x ++ [a] /\ y2 = y).
        { rewrite El in El2. replace (x ++ a :: b :: y) with ((x ++ [a]) ++ b :: y) in El2 by (rewrite <- app_assoc; reflexivity).
          assert (Q : length (x ++ [a]) = length x2) by (rewrite app_length; cbn; lia).
          clear - El2 Q. revert x2 El2 Q. induction (x ++ [a]) as [|c z IH]; intros [|d x2] El2 Q; cbn in *; try lia.
          - injection El2 as ->. auto.
          - injection El2 as -> El2. destruct (IH x2 El2) as (-> & ->); [lia|]. auto. }
        destruct Q as (-> & ->). apply app_assoc. }
  destruct G as (r0 & G1 & G2 & G3 & G4).
  assert (X : exists r, r0 = b0 :: r ++ [a0]); [|destruct X as (r & ->); eauto].
  assert (A1 := around x a y). assert (A2 := around x2 b y2). rewrite <- El in A1. rewrite <- El2 in A2. rewrite Lx2 in A2.
  destruct A1 as (b1 & m1 & a1 & E1 & P1 & N1); [lia|]. destruct A2 as (b2 & m2 & a2 & E2 & P2 & N2); [lia|].
  fold n in P1, N1, P2, N2. rewrite Ea0 in P1. injection P1 as <-. rewrite Eb0 in N2. injection N2 as <-.
  rewrite E1 in G3. injection G3 as _ G3. rewrite E2 in G4. rewrite app_comm_cons in G4. apply app_inj_tail in G4 as (G4 & _).
  destruct m2 as [|c m2].
  - exfalso. assert (K : length l = S (length (y ++ x))) by (rewrite El, !app_length; cbn; lia). rewrite E1 in K. cbn in K.
    rewrite <- G3 in G4. rewrite <- G4 in K. cbn in K. lia.
  - destruct (@exists_last _ (c :: m2)) as (m & a' & Em); [discriminate|]. rewrite Em in G4. exists m.
    rewrite <- G4. rewrite <- G3, app_comm_cons in G4. apply app_inj_tail in G4 as (_ & ->). reflexivity.
Qed.

(** *** candidates *)
Definition typed (l : list rpoint) (c : corner) (t : corner_type) : Prop := type_at l c = Ok t.
Lemma in_candidates : forall l cs prev pt ks k, typed l prev pt -> candidates_from l prev pt cs = Ok ks -> In k ks ->
  (exists c, In c cs /\ k = Concave c /\ typed l c TConcave) \/
  (exists c, In c cs /\ k = Collinear c /\ typed l c TCollinear) \/
  (exists i c1 c2, nth_error (prev :: cs) i = Some c1 /\ nth_error cs i = Some c2 /\ k = ConvexConvex c1 c2 /\ typed l c1 TConvex /\ typed l c2 TConvex).
Proof.
  intros l cs. induction cs as [|c cs IH]; intros prev pt ks k Tp E Hk; cbn [candidates_from] in E.
  - injection E as <-. destruct Hk.
  - destruct (type_at l c) as [t|] eqn:Et; [|discriminate]. cbn [rbind] in E.
    destruct (candidates_from l c t cs) as [rest|] eqn:Er; [|discriminate]. cbn [rbind] in E. injection E as <-.
    assert (K : In k rest \/ (t = TConcave /\ k = Concave c) \/ (t = TCollinear /\ k = Collinear c) \/ (t = TConvex /\ pt = TConvex /\ k = ConvexConvex prev c)).
    { destruct t; [destruct Hk as [<-|Hk]; auto|destruct pt; [auto|destruct Hk as [<-|Hk]; auto 6|auto]|destruct Hk as [<-|Hk]; auto]. }
    destruct K as [K|[(-> & ->)|[(-> & ->)|(-> & -> & ->)]]].
    + destruct (IH c t rest k Et Er K) as [(c' & I & R)|[(c' & I & R)|(i & c1 & c2 & I1 & I2 & R)]].
      * left. exists c'. split; [right; exact I|exact R].
      * right; left. exists c'. split; [right; exact I|exact R].
      * right; right. exists (S i), c1, c2. auto.
    + left. exists c. split; [left; reflexivity|]. auto.
    + right; left. exists c. split; [left; reflexivity|]. auto.
    + right; right. exists 0%nat, prev, c. auto.
Qed.
Definition cflip (m : simpl_mode) (c : corner) : corner := match m with Inflate => c | Deflate => c_flip c end.
Lemma in_corners : forall m n c, In c (corners_of m n) -> exists i, (i < n)%nat /\ c = cflip m (corner_at n i).
Proof.
  intros m n c H. destruct m.
  - rewrite corners_inflate in H. apply in_map_iff in H as (i & <- & Hi). apply in_seq in Hi. exists i. split; [lia|reflexivity].
  - rewrite corners_deflate in H. apply in_map_iff in H as (d & <- & Hd). apply in_rev in Hd. apply in_map_iff in Hd as (i & <- & Hi).
    apply in_seq in Hi. exists i. split; [lia|reflexivity].
Qed.
Lemma nth_corner : forall n i, (i < n)%nat -> nth_error (map (corner_at n) (seq 0 n)) i = Some (corner_at n i).
Proof.
  intros n i H. rewrite nth_error_map. replace (nth_error (seq 0 n) i) with (Some i); [reflexivity|].
  symmetry. rewrite (nth_error_nth' _ 0%nat); [|rewrite seq_length; exact H]. rewrite seq_nth by exact H. reflexivity.
Qed.
Lemma nth_rev : forall {A} (l : list A) i, (i < length l)%nat -> nth_error (rev l) i = nth_error l (length l - S i).
Proof.
  intros A l i H. destruct l as [|d l]; [cbn in H; lia|]. set (L := d :: l) in *.
  rewrite (nth_error_nth' (rev L) d) by (rewrite rev_length; exact H). rewrite (nth_error_nth' L d) by lia.
  rewrite rev_nth by exact H. reflexivity.
Qed.
(** consecutive corners, the last one before the first *)
Lemma adjacent : forall m n prev i c1 c2, (2 <= n)%nat -> hd_error (rev (corners_of m n)) = Some prev ->
  nth_error (prev :: corners_of m n) i = Some c1 -> nth_error (corners_of m n) i = Some c2 ->
  exists k, (k < n)%nat /\ match m with
    | Inflate => c1 = corner_at n k /\ c2 = corner_at n (nx n k)
    | Deflate => c1 = c_flip (corner_at n (nx n k)) /\ c2 = c_flip (corner_at n k)
    end.
Proof.
  intros m n prev i c1 c2 Hn Hp H1 H2.
  assert (Ln : length (map (corner_at n) (seq 0 n)) = n) by (rewrite map_length, seq_length; reflexivity).
  assert (Hi : (i < n)%nat).
  { apply nth_error_Some_lt in H2 || (assert (Z : nth_error (corners_of m n) i <> None) by congruence; apply nth_error_Some in Z; revert Z).
    destruct m; [rewrite corners_inflate|rewrite corners_deflate]; rewrite ?map_length, ?rev_length, ?map_length, ?seq_length; auto. }
  destruct m.
  - rewrite corners_inflate in *. rewrite nth_corner in H2 by exact Hi. injection H2 as <-.
    destruct i as [|i].
    + cbn in H1. injection H1 as <-. exists (Nat.pred n). split; [lia|].
      rewrite <- nth_error_0 in Hp || idtac.
      assert (Q : nth_error (rev (map (corner_at n) (seq 0 n))) 0 = Some prev) by (destruct (rev _); exact Hp).
      rewrite nth_rev in Q by lia. rewrite Ln in Q. rewrite nth_corner in Q by lia. injection Q as <-.
      split; [f_equal; lia|]. f_equal. unfold nx. destruct (Nat.eqb_spec (S (Nat.pred n)) n); lia.
    + cbn in H1. rewrite nth_corner in H1 by lia. injection H1 as <-. exists i. split; [lia|]. split; [reflexivity|].
      f_equal. unfold nx. destruct (Nat.eqb_spec (S i) n); lia.
  - rewrite corners_deflate in *. rewrite nth_error_map, nth_rev in H2 by lia. rewrite Ln, nth_corner in H2 by lia. injection H2 as <-.
    exists (n - S i)%nat. split; [lia|]. split; [|reflexivity].
    destruct i as [|i].
    + cbn in H1. injection H1 as <-. rewrite <- map_rev, rev_involutive in Hp.
      destruct n; [lia|]. cbn in Hp. injection Hp as <-.
      replace (nx (S n) (S n - 1)) with 0%nat by (unfold nx; destruct (Nat.eqb_spec (S (S n - 1)) (S n)); lia). reflexivity.
    + cbn [nth_error] in H1. rewrite nth_error_map, nth_rev in H1 by lia. rewrite Ln, nth_corner in H1 by lia. injection H1 as <-.
      f_equal. f_equal. unfold nx. destruct (Nat.eqb_spec (S (n - S (S i))) n); lia.
Qed.
Lemma turn_flip : forall a b c, turn c b a = - turn a b c.
Proof. intros a b c. unfold turn. ring. Qed.
Lemma turn_rot : forall a b c, turn b c a = turn a b c.
Proof. intros a b c. unfold turn. ring. Qed.
Lemma typed_spec : forall l c t, typed l c t -> exists a p b, nth_error l (c_prev c) = Some a /\ nth_error l (c_mid c) = Some p /\
  nth_error l (c_next c) = Some b /\ match t with TConcave => turn a p b < 0 | TCollinear => turn a p b = 0 | TConvex => 0 < turn a p b end.
Proof.
  intros l c t H. unfold typed, type_at in H.
  destruct (vertex l (c_prev c)) as [a|] eqn:Ea; [|discriminate]. destruct (vertex l (c_mid c)) as [p|] eqn:Ep; [|discriminate].
  destruct (vertex l (c_next c)) as [b|] eqn:Eb; [|discriminate]. apply vertex_ok in Ea, Ep, Eb. cbn [rbind] in H. injection H as <-.
  exists a, p, b. split; [exact Ea|]. split; [exact Ep|]. split; [exact Eb|]. unfold corner_type_of.
  set (x := fsub _ _). assert (Ex : x = turn a p b) by reflexivity. rewrite Ex. clear x Ex.
  destruct (flt (turn a p b) f0) eqn:L; [apply Rltb_spec in L; exact L|]. apply Rltb_nspec in L.
  destruct (feq (turn a p b) f0) eqn:Q; [apply Reqb_spec in Q; exact Q|]. apply Reqb_nspec in Q. cbn [f0 RNum RNumT] in *. lra.
Qed.
Lemma in_front : forall a0 a b0 b v, intersection_in_front (Ed a0 a) (Ed b0 b) = Some v -> beyond a0 a v /\ beyond b0 b v.
Proof.
  intros a0 a b0 b v H. unfold intersection_in_front in H. cbn [es ee] in H.
  set (tn := fsub (fmul (fsub (px a) (px b)) (fsub (py b) (py b0))) _) in H.
  set (td := fsub (fmul (fsub (px a) (px a0)) _) _) in H. set (un := fsub (fmul (fsub (px a) (px b)) (fsub (py a) (py a0))) _) in H.
  assert (Etn : tn = (px a - px b) * (py b - py b0) - (py a - py b) * (px b - px b0)) by reflexivity.
  assert (Etd : td = (px a - px a0) * (py b - py b0) - (py a - py a0) * (px b - px b0)) by reflexivity.
  assert (Eun : un = (px a - px b) * (py a - py a0) - (py a - py b) * (px a - px a0)) by reflexivity.
  destruct (feq td f0) eqn:Z; cbn [negb] in H.
  - assert (K : flt (f0 (F := R)) f0 = false) by (apply Rltb_nspec; cbn; lra). rewrite K in H. discriminate.
  - apply Reqb_nspec in Z. cbn [f0 RNum RNumT] in Z.
    destruct (flt (fdiv tn td) f0) eqn:T; [|discriminate]. destruct (flt (fdiv un td) f0) eqn:U; [|discriminate].
    cbn [andb] in H. injection H as <-. apply Rltb_spec in T, U. cbn [fdiv f0 RNum RNumT] in T, U.
    split.
    + exists (- (tn / td)). split; [lra|]. cbn [fadd fsub fmul fdiv RNum RNumT]. apply pt_ext; cbn [px py]; ring.
    + exists (- (un / td)). split; [lra|]. cbn [fadd fsub fmul fdiv RNum RNumT].
      apply pt_ext; cbn [px py]; rewrite Etn, Eun in *; rewrite Etd in *; field; exact Z.
Qed.
Lemma replacing_spec : forall l c1 c2 o, replacing_vertex l c1 c2 = Ok o -> exists a0 a b0 b,
  nth_error l (c_prev c1) = Some a0 /\ nth_error l (c_mid c1) = Some a /\ nth_error l (c_next c2) = Some b0 /\ nth_error l (c_mid c2) = Some b /\
  forall v, o = Some v -> beyond a0 a v /\ beyond b0 b v.
Proof.
  intros l c1 c2 o H. unfold replacing_vertex in H. destruct (rassert _) as [[]|]; [|discriminate]. cbn [rbind] in H. destruct (rassert _) as [[]|]; [|discriminate]. cbn [rbind] in H.
  destruct (vertex l (c_prev c1)) as [a0|] eqn:E1; [|discriminate]. destruct (vertex l (c_mid c1)) as [a|] eqn:E2; [|discriminate]. cbn [rbind] in H.
  destruct (edge_new a0 a) as [ep|] eqn:Ep; [|discriminate]. cbn [rbind] in H.
  destruct (vertex l (c_next c2)) as [b0|] eqn:E3; [|discriminate]. destruct (vertex l (c_mid c2)) as [b|] eqn:E4; [|discriminate]. cbn [rbind] in H.
  destruct (edge_new b0 b) as [en|] eqn:En; [|discriminate]. cbn [rbind] in H. injection H as H.
  unfold edge_new in Ep, En. destruct (pt_eq a0 a); [discriminate|]. destruct (pt_eq b0 b); [discriminate|]. injection Ep as <-. injection En as <-.
  apply vertex_ok in E1, E2, E3, E4. exists a0, a, b0, b. split; [exact E1|]. split; [exact E2|]. split; [exact E3|]. split; [exact E4|].
  intros v ->. apply in_front. exact H.
Qed.
(** *** areas *)
Lemma shoelace_cyclic : forall l l', cyclic l l' -> shoelace l = shoelace l'.
Proof. intros l l' (x & y & -> & ->). unfold shoelace. rewrite (total_perm _ _ _ (ring_rotate_app x y)). reflexivity. Qed.
Lemma ring_drop : forall p b r a, ring (p :: b :: r ++ [a]) = Ed p b :: path_edges a b r ++ [Ed a p] /\
  ring (b :: r ++ [a]) = path_edges a b r ++ [Ed a b].
Proof. intros p b r a. cbn [ring path_edges]. rewrite !path_snoc. auto. Qed.
Lemma ring_merge : forall a b b0 r a0 v, ring (a :: b :: b0 :: r ++ [a0]) = Ed a b :: Ed b b0 :: path_edges a0 b0 r ++ [Ed a0 a] /\
  ring (v :: b0 :: r ++ [a0]) = Ed v b0 :: path_edges a0 b0 r ++ [Ed a0 v].
Proof. intros a b b0 r a0 v. cbn [ring path_edges]. rewrite !path_snoc. auto. Qed.
Lemma drop_area : forall l l' r a p b, cyclic l (p :: b :: r ++ [a]) -> cyclic l' (b :: r ++ [a]) -> shoelace l' = shoelace l - turn a p b / 2.
Proof.
  intros l l' r a p b C C'. rewrite (shoelace_cyclic _ _ C), (shoelace_cyclic _ _ C'). unfold shoelace.
  destruct (ring_drop p b r a) as (-> & ->). cbn [total fold_right]. unfold turn.
  change (fold_right (fun x s => px (es x) * py (ee x) - px (ee x) * py (es x) + s) 0) with (total crs).
  rewrite !(total_app crs). unfold total, crs; cbn [fold_right es ee]. lra.
Qed.
Lemma merge_area : forall l l' r a0 a b b0 v, cyclic l (a :: b :: b0 :: r ++ [a0]) -> cyclic l' (v :: b0 :: r ++ [a0]) ->
  beyond a0 a v -> beyond b0 b v -> shoelace l' = shoelace l + turn a v b / 2.
Proof.
  intros l l' r a0 a b b0 v C C' (s & Hs & Es) (t & Ht & Et). rewrite (shoelace_cyclic _ _ C), (shoelace_cyclic _ _ C'). unfold shoelace.
  destruct (ring_merge a b b0 r a0 v) as (-> & ->). cbn [total fold_right].
  change (fold_right (fun x s => px (es x) * py (ee x) - px (ee x) * py (es x) + s) 0) with (total crs).
  rewrite !(total_app crs). unfold total, crs; cbn [fold_right es ee].
  assert (X1 : px v = px a + s * (px a - px a0)) by (rewrite Es; reflexivity). assert (Y1 : py v = py a + s * (py a - py a0)) by (rewrite Es; reflexivity).
  assert (X2 : px v = px b + t * (px b - px b0)) by (rewrite Et; reflexivity). assert (Y2 : py v = py b + t * (py b - py b0)) by (rewrite Et; reflexivity).
  set (z := fold_right _ _ _). clearbody z. clear Es Et C C'.
  assert (Q1 : turn a0 a v = 0) by (unfold turn; rewrite X1, Y1; ring). assert (Q2 : turn b0 b v = 0) by (unfold turn; rewrite X2, Y2; ring).
  unfold turn in *. lra.
Qed.
Lemma merge_sign : forall a0 a b v, beyond a0 a v -> exists s, 0 < s /\ turn a v b = s * turn a0 a b.
Proof.
  intros a0 a b v (s & Hs & ->). exists s. split; [exact Hs|]. unfold turn; cbn [px py]. ring.
Qed.
Lemma tri_area_ok : forall a b c, tri_area a b c = Rabs (turn a b c / 2).
Proof.
  intros a b c. unfold tri_area, f2. cbn [fadd fsub fmul fdiv fabs f1 RNum RNumT]. f_equal. unfold turn. field.
Qed.
(** whatever candidate is executed, it is one of the documented operations *)
Theorem executed : forall m l cs c l', (4 <= length l)%nat -> candidates_of m l = Ok cs -> In c cs -> execute_candidate l c = Ok l' ->
  simplified m l l' /\ area_delta l c = Ok (Some (Rabs (shoelace l' - shoelace l))).
Proof.
  intros m l cs c l' L Ec Hc Ex. unfold candidates_of in Ec. cbn zeta in Ec.
  destruct (hd_error (rev (corners_of m (length l)))) as [prev|] eqn:Ep; [|discriminate]. cbn [expect rbind] in Ec.
  destruct (type_at l prev) as [pt|] eqn:Et; [|discriminate]. cbn [rbind] in Ec.
  assert (Dr : forall c, In c (corners_of m (length l)) -> (typed l c TConcave \/ typed l c TCollinear) -> remove_at (c_mid c) l = Ok l' -> simplified m l l' /\
    exists a p b, nth_error l (c_prev c) = Some a /\ nth_error l (c_mid c) = Some p /\ nth_error l (c_next c) = Some b /\
      Rabs (shoelace l' - shoelace l) = Rabs (turn a p b / 2)).
  { intros d Hd Td Er. apply in_corners in Hd as (i & Hi & ->).
    assert (T : exists a p b, nth_error l (c_prev (cflip m (corner_at (length l) i))) = Some a /\ nth_error l i = Some p /\
      nth_error l (c_next (cflip m (corner_at (length l) i))) = Some b /\ turn a p b <= 0).
    { destruct Td as [Td|Td]; apply typed_spec in Td as (a & p & b & A & B & C & D); exists a, p, b; (split; [exact A|]);
        (split; [destruct m; exact B|]); (split; [exact C|]); lra. }
    destruct T as (a & p & b & A & B & C & D). destruct m; cbn [cflip c_flip corner_at c_prev c_mid c_next] in *.
    - destruct (drop_cyclic l l' i a p b ltac:(lia) Er A B C) as (r & R1 & R2). split; [eapply DropVertex; [exact R1|exact R2|]; cbn; lra|].
      exists a, p, b. split; [exact A|]. split; [exact B|]. split; [exact C|]. rewrite (drop_area _ _ _ _ _ _ R1 R2).
      replace (shoelace l - turn a p b / 2 - shoelace l) with (- (turn a p b / 2)) by ring. apply Rabs_Ropp.
    - destruct (drop_cyclic l l' i b p a ltac:(lia) Er C B A) as (r & R1 & R2). split; [eapply DropVertex; [exact R1|exact R2|]; cbn; rewrite turn_flip; lra|].
      exists a, p, b. split; [exact A|]. split; [exact B|]. split; [exact C|]. rewrite (drop_area _ _ _ _ _ _ R1 R2), (turn_flip a p b).
      f_equal. field. }
  destruct (in_candidates _ _ _ _ _ _ Et Ec Hc) as [(d & Hd & -> & T)|[(d & Hd & -> & T)|(i & c1 & c2 & I1 & I2 & -> & T1 & T2)]].
  - destruct (Dr d Hd (or_introl T) Ex) as (S0 & a & p & b & A & B & C & D). split; [exact S0|]. cbn [area_delta].
    apply vertex_ok in A, B, C. rewrite A, B, C. cbn [rbind]. rewrite D, tri_area_ok. reflexivity.
  - destruct (Dr d Hd (or_intror T) Ex) as (S0 & a & p & b & A & B & C & D). split; [exact S0|]. cbn [area_delta]. rewrite D.
    apply typed_spec in T as (a' & p' & b' & A' & B' & C' & T). rewrite A in A'. rewrite B in B'. rewrite C in C'.
    injection A' as <-. injection B' as <-. injection C' as <-. rewrite T. f_equal. f_equal. cbn. unfold Rdiv. rewrite Rmult_0_l, Rabs_R0. reflexivity.
  - destruct (adjacent m (length l) prev i c1 c2 ltac:(lia) Ep I1 I2) as (k & Hk & Ck). cbn [execute_candidate] in Ex.
    destruct (replacing_vertex l c1 c2) as [o|] eqn:Er; [|discriminate]. cbn [rbind] in Ex. destruct o as [v|]; [|discriminate]. cbn [expect rbind] in Ex.
    destruct (replacing_spec _ _ _ _ Er) as (a0 & a & b0 & b & A0 & A & B0 & B & Bv). destruct (Bv v eq_refl) as (V1 & V2).
    apply typed_spec in T1 as (t1 & t2 & t3 & T11 & T12 & T13 & T1). apply typed_spec in T2 as (u1 & u2 & u3 & T21 & T22 & T23 & T2).
    change (swap_out l (c_mid c1) (c_mid c2) v = Ok l') in Ex.
    destruct m; destruct Ck as (-> & ->); cbn [c_flip corner_at c_prev c_mid c_next] in *;
      rewrite ?(pv_nx _ _ Hk) in *; rewrite A0 in T11; injection T11 as <-; rewrite A in T12, T21; injection T12 as <-; injection T21 as <-;
      rewrite B in T13, T22; injection T13 as <-; injection T22 as <-; rewrite B0 in T23; injection T23 as <-.
    + destruct (merge_cyclic l l' k k _ a b a0 b0 v L Hk A0 A B B0 (or_introl (conj eq_refl eq_refl)) Ex) as (r & R1 & R2).
      split; [eapply (MergeVertices _ _ _ r a0 a b b0 v); eauto; cbn; lra|]. cbn [area_delta]. rewrite Er. cbn [rbind corner_at c_mid].
      apply vertex_ok in A, B. rewrite A, B. cbn [rbind]. rewrite tri_area_ok, (merge_area _ _ _ _ _ _ _ _ R1 R2 V1 V2). do 3 f_equal. ring.
    + destruct (merge_cyclic l l' k _ k b a b0 a0 v L Hk B0 B A A0 (or_intror (conj eq_refl eq_refl)) Ex) as (r & R1 & R2).
      split; [eapply (MergeVertices _ _ _ r b0 b a a0 v); eauto; cbn; rewrite turn_flip; lra|]. cbn [area_delta]. rewrite Er. cbn [rbind c_flip corner_at c_mid].
      apply vertex_ok in A, B. rewrite A, B. cbn [rbind]. rewrite tri_area_ok, (merge_area _ _ _ _ _ _ _ _ R1 R2 V2 V1), (turn_flip a v b).
      rewrite <- Rabs_Ropp. do 3 f_equal. field.
Qed.

(** a round never moves the area the wrong way *)
Theorem step_area : forall m l l', simplified m l l' -> dir m * shoelace l <= dir m * shoelace l'.
Proof.
  intros m l l' [r a p b C C' T|r a0 a b b0 v C C' T1 T2 V1 V2].
  - rewrite (drop_area _ _ _ _ _ _ C C'). lra.
  - rewrite (merge_area _ _ _ _ _ _ _ _ C C' V1 V2). destruct (merge_sign a0 a b v V1) as (s & Hs & ->).
    replace (dir m * (shoelace l + s * turn a0 a b / 2)) with (dir m * shoelace l + s * (dir m * turn a0 a b) / 2) by field.
    assert (0 < s * (dir m * turn a0 a b)) by (apply Rmult_lt_0_compat; assumption). lra.
Qed.
Lemma cyc_length : forall {A} (l l' : list A), cyclic l l' -> length l = length l'.
Proof. intros A l l' (x & y & -> & ->). rewrite !app_length. lia. Qed.
Theorem step_length : forall m l l', simplified m l l' -> length l = S (length l').
Proof.
  intros m l l' [r a p b C C' _|r a0 a b b0 v C C' _ _ _ _]; apply cyc_length in C, C'; rewrite C, C'; cbn; rewrite ?app_length; reflexivity.
Qed.

(** *** the chosen candidate *)
Lemma insert_key_perm : forall {A} (x : option R * A) l, Permutation (insert_key x l) (x :: l).
Proof.
  intros A x l. induction l as [|y l IH]; cbn; [reflexivity|]. destruct (key_lt _ _); [reflexivity|]. rewrite IH. apply perm_swap.
Qed.
Lemma sort_keys_perm : forall {A} (l : list (option R * A)), Permutation (sort_keys l) l.
Proof.
  intros A l. unfold sort_keys. rewrite <- (app_nil_r l) at 2. generalize (@nil (option R * A)) as acc.
  induction l as [|x l IH]; intros acc; cbn [fold_left app]; [reflexivity|]. rewrite IH. rewrite insert_key_perm. symmetry. apply Permutation_middle.
Qed.
Definition key_le (a b : option R) : Prop := match a, b with Some x, Some y => x <= y | None, Some _ => False | _, None => True end.
Lemma key_le_trans : forall a b c, key_le a b -> key_le b c -> key_le a c.
Proof. intros [a|] [b|] [c|]; cbn; auto; try tauto; lra. Qed.
Lemma key_lt_le : forall a b, key_lt (N := RNum) a b = true -> key_le a b.
Proof. intros [a|] [b|]; cbn; intros H; try discriminate; auto. apply Rltb_spec in H. lra. Qed.
Lemma key_nlt_le : forall a b, key_lt (N := RNum) a b = false -> key_le b a.
Proof. intros [a|] [b|]; cbn; intros H; try discriminate; auto. apply Rltb_nspec in H. lra. Qed.
Definition ordered {A} (l : list (option R * A)) : Prop := StronglySorted (fun x y => key_le (fst x) (fst y)) l.
Lemma insert_key_sorted : forall {A} (x : option R * A) l, ordered l -> ordered (insert_key x l).
Proof.
  intros A x l H. induction H as [|y l Hs IH Hy]; cbn; [constructor; constructor|]. destruct (key_lt (fst x) (fst y)) eqn:K.
  - constructor; [constructor; assumption|]. apply key_lt_le in K. constructor; [exact K|].
    eapply Forall_impl; [|exact Hy]. intros z Hz. cbn in Hz. eapply key_le_trans; eassumption.
  - constructor; [exact IH|]. apply key_nlt_le in K. eapply Permutation_Forall; [symmetry; apply insert_key_perm|]. constructor; assumption.
Qed.
Lemma sort_keys_sorted : forall {A} (l : list (option R * A)), ordered (sort_keys l).
Proof.
  intros A l. unfold sort_keys. assert (G : forall acc, ordered acc -> ordered (fold_left (fun acc x => insert_key x acc) l acc)).
  { induction l as [|x l IH]; intros acc H; cbn [fold_left]; [exact H|]. apply IH, insert_key_sorted, H. }
  apply G. constructor.
Qed.
Lemma rfind_first : forall {A} (f : A -> res bool) l x, rfind f l = Ok (Some x) -> exists l1 l2, l = l1 ++ x :: l2 /\ f x = Ok true /\
  forall y, In y l1 -> f y = Ok false.
Proof.
  intros A f l x. induction l as [|y l IH]; cbn; [discriminate|]. destruct (f y) as [b|] eqn:E; [|discriminate]. cbn. destruct b; intros H.
  - injection H as ->. exists [], l. split; [reflexivity|]. split; [exact E|]. intros z [].
  - destruct (IH H) as (l1 & l2 & -> & F & G). exists (y :: l1), l2. split; [reflexivity|]. split; [exact F|]. intros z [<-|Hz]; auto.
Qed.
Lemma rmapM_in : forall {A B} (f : A -> res B) l ys, rmapM f l = Ok ys -> (forall x, In x l -> exists y, f x = Ok y /\ In y ys) /\
  (forall y, In y ys -> exists x, In x l /\ f x = Ok y).
Proof.
  intros A B f l. induction l as [|x l IH]; intros ys H; cbn in H; [injection H as <-; split; intros ? []|].
  destruct (f x) as [y|] eqn:E; [|discriminate]. cbn in H. destruct (rmapM f l) as [r|] eqn:Er; [|discriminate]. cbn in H. injection H as <-.
  destruct (IH r eq_refl) as (I1 & I2). split.
  - intros z [<-|Hz]; [exists y; split; [exact E|left; reflexivity]|]. destruct (I1 z Hz) as (w & W1 & W2). exists w. split; [exact W1|right; exact W2].
  - intros w [<-|Hw]; [exists x; split; [left; reflexivity|exact E]|]. destruct (I2 w Hw) as (z & Z1 & Z2). exists z. split; [right; exact Z1|exact Z2].
Qed.

(** one round *)
Theorem round_spec : forall m l c l', (4 <= length l)%nat -> best_candidate m l = Ok (Some c) -> execute_candidate l c = Ok l' ->
  simplified m l l' /\ forall cs c' l'', candidates_of m l = Ok cs -> In c' cs -> candidate_is_valid l c' = Ok true ->
    execute_candidate l c' = Ok l'' -> Rabs (shoelace l' - shoelace l) <= Rabs (shoelace l'' - shoelace l).
Proof.
  intros m l c l' L Eb Ex. unfold best_candidate in Eb. destruct (candidates_of m l) as [cs|] eqn:Ec; [|discriminate]. cbn [rbind] in Eb.
  destruct (rmapM _ cs) as [keyed|] eqn:Ek; [|discriminate]. cbn [rbind] in Eb. destruct (rfind _ _) as [best|] eqn:Ef; [|discriminate]. cbn [rbind] in Eb.
  destruct best as [(k, c0)|]; [|discriminate]. cbn in Eb. injection Eb as ->.
  destruct (rfind_first _ _ _ Ef) as (l1 & l2 & Es & _ & Hf). destruct (rmapM_in _ _ _ Ek) as (K1 & K2).
  assert (Hc : In c cs /\ area_delta l c = Ok k).
  { assert (I : In (k, c) keyed) by (eapply Permutation_in; [apply sort_keys_perm|]; rewrite Es; apply in_elt).
    destruct (K2 _ I) as (x & Ix & Ex'). destruct (area_delta l x) as [kx|] eqn:Ed; [|discriminate]. cbn in Ex'. injection Ex' as -> ->. auto. }
  destruct Hc as (Hc & Dc). destruct (executed m l cs c l' L Ec Hc Ex) as (Sm & Dl). split; [exact Sm|].
  intros cs' c' l'' Ec' Hc' Va Ex'. injection Ec' as <-. destruct (executed m l cs c' l'' L Ec Hc' Ex') as (_ & Dl').
  rewrite Dc in Dl. injection Dl as ->.
  destruct (K1 c' Hc') as ((k', c0) & Ey & Iy). rewrite Dl' in Ey. cbn in Ey. injection Ey as <- <-.
  assert (I : In (Some (Rabs (shoelace l'' - shoelace l)), c') (sort_keys keyed)) by (eapply Permutation_in; [symmetry; apply sort_keys_perm|exact Iy]).
  pose proof (sort_keys_sorted keyed) as So. rewrite Es in I, So. apply in_app_or in I as [I|I].
  - specialize (Hf _ I). cbn [snd] in Hf. congruence.
  - destruct I as [I|I]; [injection I as -> _; lra|]. clear - So I. induction l1 as [|y l1 IH]; cbn in So; inversion So; subst.
    + match goal with H : Forall _ l2 |- _ => rewrite Forall_forall in H; specialize (H _ I); cbn in H; exact H end.
    + apply IH. assumption.
Qed.
(** all rounds *)
Theorem rounds_spec : forall m o tol n l l', 0 < o -> (3 <= length l)%nat -> Rabs (shoelace l - o) <= tol * o -> simpl_rounds n m o tol l = Ok l' ->
  simplified_to m l l' /\ Rabs (shoelace l' - o) <= tol * o /\ (3 <= length l')%nat.
Proof.
  intros m o tol n. induction n as [|n IH]; intros l l' Ho L T H; cbn [simpl_rounds] in H.
  - injection H as <-. split; [constructor|]. auto.
  - destruct (Nat.ltb_spec (length l) 4) as [S|S]; [injection H as <-; split; [constructor|]; auto|].
    destruct (best_candidate m l) as [[c|]|] eqn:Eb; cbn [rbind] in H; [|injection H as <-; split; [constructor|]; auto|discriminate].
    destruct (execute_candidate l c) as [l1|] eqn:Ex; [|discriminate]. cbn [rbind] in H.
    destruct (round_spec m l c l1 S Eb Ex) as (St & _). pose proof (step_length _ _ _ St) as Ln.
    destruct (fle _ _) eqn:Q; [|injection H as <-; split; [constructor|]; auto].
    apply Rleb_spec in Q. rewrite area_ok in Q. cbn [fabs fdiv fsub RNum RNumT] in Q.
    assert (T1 : Rabs (shoelace l1 - o) <= tol * o).
    { apply (Rmult_le_compat_r o) in Q; [|lra]. unfold Rdiv in Q. rewrite Rmult_assoc, Rinv_l, Rmult_1_r in Q by lra. exact Q. }
    destruct (IH l1 l' Ho ltac:(lia) T1 H) as (A & B & C). split; [econstructor; eassumption|]. auto.
Qed.
Lemma to_area : forall m l l', simplified_to m l l' -> dir m * shoelace l <= dir m * shoelace l' /\ (length l' <= length l)%nat.
Proof.
  intros m l l' H. induction H as [|l l1 l2 H _ (IH & IL)]; [split; [lra|lia]|]. pose proof (step_area _ _ _ H). pose proof (step_length _ _ _ H). split; [lra|lia].
Qed.
(** C27 *)
Theorem simplify_spec : forall m tol s s', normalised s -> 0 <= tol -> simplify_shape s m tol = Ok s' ->
  normalised s' /\ (3 <= length (p_pts s') <= length (p_pts s))%nat /\ Rabs (p_area s' - p_area s) <= tol * p_area s /\
  (m = Inflate -> p_area s <= p_area s') /\ (m = Deflate -> tol <= 2 -> p_area s' <= p_area s) /\
  (m = Inflate \/ tol < 1 -> simplified_to m (p_pts s) (p_pts s')).
Proof.
  intros m tol s s' Nm Ht H. unfold simplify_shape in H. destruct (simpl_rounds _ _ _ _ _) as [l|] eqn:Er; [|discriminate]. cbn [rbind] in H.
  pose proof (nm_positive _ Nm) as Ps. pose proof (nm_area _ Nm) as As. pose proof (nm_size _ Nm) as Ls.
  assert (T0 : Rabs (shoelace (p_pts s) - p_area s) <= tol * p_area s).
  { rewrite As. replace (shoelace _ - shoelace _) with 0 by ring. rewrite Rabs_R0. apply Rmult_le_pos; [exact Ht|]. rewrite <- As. lra. }
  destruct (rounds_spec m (p_area s) tol _ _ _ Ps Ls T0 Er) as (St & Tl & Ll).
  destruct (to_area _ _ _ St) as (Ar & Le). rewrite <- As in Ar.
  destruct (poly_new_ok _ _ H) as (Nm' & Or & _). pose proof (nm_area _ Nm') as As'.
  assert (Ab : p_area s' = Rabs (shoelace l)).
  { destruct Or as [(E & P)|(E & P)]; rewrite As', E; [rewrite Rabs_pos_eq; lra|]. rewrite shoelace_rev, Rabs_left; lra. }
  split; [exact Nm'|]. split; [split; [apply Nm'|]|]; [|split; [|split; [|split]]].
  - destruct Or as [(E & _)|(E & _)]; rewrite E, ?rev_length; exact Le.
  - rewrite Ab. revert Tl. unfold Rabs. repeat destruct Rcase_abs; lra.
  - intros ->. cbn in Ar. rewrite Ab. pose proof (Rle_abs (shoelace l)). lra.
  - intros -> T2. cbn in Ar. rewrite Ab. assert (K : tol * p_area s <= 2 * p_area s) by (apply Rmult_le_compat_r; lra).
    revert Tl. unfold Rabs. repeat destruct Rcase_abs; lra.
  - intros Cs. destruct Or as [(E & _)|(E & P)]; [rewrite E; exact St|]. exfalso. destruct Cs as [->|T1].
    + cbn in Ar. lra.
    + assert (K : tol * p_area s < 1 * p_area s) by (apply Rmult_lt_compat_r; lra). revert Tl. unfold Rabs. destruct Rcase_abs; lra.
Qed.
