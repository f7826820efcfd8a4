(** A rectangular bin, 10 x 4 in its square of 10 x 10, on a grid of about sixty cells:
    two items are placed, one is taken out and put back elsewhere. *)
From Coq Require Import List Bool Arith Lia.
From Verif Require Import Base Num GeoModel HazardModel QTModel TransfModel HpgModel CdeModel BaseProofs CdeSpec CdeOpsProofs Instances GeoSpec ParityProofs
  PlaceSpec HpgSpec HpgGenProofs HpgRoomProofs HpgBoxProofs PlaceExampleProofs RegionProofs CdeGeoProofs AssertGridSpec HpgExampleProofs HpgThmProofs.
From Coq Require Import Reals Lra.
From Verif Require Import GeoModel HazardModel QTModel TransfModel HpgModel CdeModel CdeSpec GeoSpec PlaceSpec HpgSpec.
Import ListNotations.
Local Open Scope R_scope.
#[local] Existing Instance NatEqD.
#[local] Existing Instance LinSearch.

Definition bx_rr : rect R := Rc 0 3 10 7.
Definition bx_st : list (hazard R nat) := [Hz BinExterior (Arc 0 (rbox 0 3 10 7 2)) true].
Definition bx_a : hazard R nat := Hz (PlacedItem 1 0%nat) (Arc 1 (rbox 5 4 7 6 1)) true.
Definition bx_b : hazard R nat := Hz (PlacedItem 2 1%nat) (Arc 1 (rbox 0 5 2 7 1)) true.
Definition bx_c : hazard R nat := Hz (PlacedItem 3 2%nat) (Arc 1 (rbox 8 3 10 5 1)) true.
Definition bx_ops : list (op R nat) := [OReg bx_a; OReg bx_b; ODereg (PlacedItem 1 0%nat) false; OReg bx_c].

Section Example.
  #[local] Instance NMz : Num R := RNumT Reqb 1000.
  Lemma bx_square : ex_bb = inflate_to_square bx_rr.
  Proof. unfold inflate_to_square, bx_rr, ex_bb. cbn [x_min x_max y_min y_max]. unfold f2. cbn [flt fsub fadd fdiv f0 f1 NMz RNumT]. rewrite (proj2 (Rltb_spec _ _)) by lra. f_equal; lra. Qed.
  Lemma bx_static : Forall (@static_hazard nat) bx_st.
  Proof. constructor; [|constructor]. split; [apply good_sound, rbox_good; lra|]. split; [discriminate|exact Logic.I]. Qed.
  Lemma bx_bin : oblong_bin bx_rr bx_st.
  Proof.
    eexists. split; [reflexivity|]. split; [reflexivity|]. split; [reflexivity|].
    intros h p [<-|[]] [Hx Hy] Bl. cbn in Hx, Hy. destruct (rbox_inside 0 3 10 7 2 p Hx Hy) as [N Eo].
    unfold blocked in Bl. cbn [f_ent ent_position fact_of h_ent fst snd f_poly h_shape a_obj] in Bl. destruct Bl as [Bl|Bl]; [exact (N Bl)|].
    unfold f_poly in Bl. cbn [fst snd] in Bl. congruence.
  Qed.
  Lemma bx_valid : valid bx_st bx_ops.
  Proof.
    assert (G : forall a b c d k, a < c -> b < d -> good_poly (rbox a b c d k)) by (intros; apply good_wf, rbox_good; assumption).
    split.
    - split; [constructor; [apply G; lra|constructor]|]. simpl. constructor; [intros []|constructor].
    - exists (fun e => match e with BinExterior => (rbox 0 3 10 7 2, true) | PlacedItem 1%nat _ => (rbox 5 4 7 6 1, true) | PlacedItem 2%nat _ => (rbox 0 5 2 7 1, true) | _ => (rbox 8 3 10 5 1, true) end).
      simpl. repeat split; try (apply G; lra); try reflexivity; try (left; reflexivity); try (right; left; reflexivity);
        intros K; repeat (destruct K as [K|K]; [discriminate|]); destruct K.
  Qed.
  Lemma bx_grid_op : forall i j a b c d, a < c -> b < d -> grid_op (OReg (Hz (PlacedItem i j) (Arc 1 (rbox a b c d 1)) true) : op R nat).
  Proof.
    intros i j a b c d Lx Ly. split; [reflexivity|]. split; [reflexivity|]. split; [reflexivity|]. split; [|cbn; lra].
    eexists. split; [reflexivity|]. cbn [s_poles s_bcircle]. split; [discriminate|]. split; [intros k [<-|[]]; cbn; lra|]. split; [cbn; lra|]. intros k p [<-|[]] H. exact H.
  Qed.
  Lemma bx_grid_ops : Forall grid_op bx_ops.
  Proof. constructor; [apply bx_grid_op; lra|]. constructor; [apply bx_grid_op; lra|]. constructor; [exact Logic.I|]. constructor; [apply bx_grid_op; lra|constructor]. Qed.
  Lemma bx_centred : Forall (centred_op bx_rr) bx_ops.
  Proof. constructor; [intros k [<-|[]]; split; cbn; lra|]. constructor; [intros k [<-|[]]; split; cbn; lra|]. constructor; [exact Logic.I|]. constructor; [intros k [<-|[]]; split; cbn; lra|constructor]. Qed.
  Lemma bx_stout : Forall (@stout_op nat) bx_ops.
  Proof. constructor; [intros k [<-|[]]; cbn; lra|]. constructor; [intros k [<-|[]]; cbn; lra|]. constructor; [exact Logic.I|]. constructor; [intros k [<-|[]]; cbn; lra|constructor]. Qed.
  Lemma bx_fine : 21 * r_area ex_bb <= INR 60 * r_area bx_rr.
  Proof. rewrite (INR_IZR_INZ 60). unfold r_area, r_width, r_height, ex_bb, bx_rr. cbn [x_min x_max y_min y_max fsub fmul NMz RNumT]. cbn. lra. Qed.
  Lemma bx_new : forall depth, exists c0 g, cde_new ex_bb bx_st depth 60 = Ok c0 /\ cd_hpg c0 = Some g.
  Proof.
    intros depth. destruct bx_valid as (Sok & _).
    destruct (cde_new_ok (N := NMz) LinSearch_ok depth ex_bb bx_st 60 (proj1 Sok) (proj2 Sok)) as (qt & E & _).
    destruct (box_bin_facts bx_rr bx_st bx_bin bx_static) as (Pr & Hu & Cl).
    destruct (room_grid LinSearch_ok 1000 ex_bb bx_rr bx_st 60 ex_proper) as (g & Eg); try assumption.
    - repeat split; cbn; lra.
    - exact bx_static.
    - discriminate.
    - unfold r_area, r_width, r_height, ex_bb, bx_rr. cbn [x_min x_max y_min y_max]. cbn. lra.
    - assert (Eg' : hpg_new ex_bb bx_st 60 = Ok g) by exact Eg. rewrite Eg' in E. cbn [rbind] in E. eexists _, g. split; [exact E|reflexivity].
  Qed.
  Lemma bx_hyps : proper ex_bb /\ ex_bb = inflate_to_square bx_rr /\ sub_box bx_rr ex_bb /\ Forall static_hazard bx_st /\ oblong_bin bx_rr bx_st /\ valid bx_st bx_ops /\
    Forall grid_op bx_ops /\ Forall (centred_op bx_rr) bx_ops /\ Forall stout_op bx_ops /\ tidy bx_ops false /\ 21 * r_area ex_bb <= INR 60 * r_area bx_rr /\
    forall depth, exists c0 g, cde_new ex_bb bx_st depth 60 = Ok c0 /\ cd_hpg c0 = Some g.
  Proof.
    split; [exact ex_proper|]. split; [exact bx_square|]. split; [repeat split; cbn; lra|]. split; [exact bx_static|]. split; [exact bx_bin|]. split; [exact bx_valid|].
    split; [exact bx_grid_ops|]. split; [exact bx_centred|]. split; [exact bx_stout|]. split; [exact Logic.I|]. split; [exact bx_fine|exact bx_new].
  Qed.
End Example.
