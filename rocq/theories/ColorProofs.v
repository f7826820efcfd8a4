(** The text of a colour. *)
From Coq Require Import List Arith Bool Lia.
From Verif Require Import Base SvgModel ColorModel BaseProofs.
Import ListNotations.
Definition bytes (c : color) : Prop := c_red c < 256 /\ c_green c < 256 /\ c_blue c < 256.
Lemma digit_char : forall n, n < 16 -> to_digit (hex_char n) = Some n /\ hex_char n <> 43 /\ hex_char n <> 35.
Proof. intros n H. do 16 (destruct n as [|n]; [repeat split; cbv; discriminate|]). lia. Qed.
Lemma pair_radix : forall n, n < 256 -> from_radix (hex_char (n / 16)) (hex_char (n mod 16)) = Ok n.
Proof.
  intros n H. assert (A : n / 16 < 16) by (apply Nat.div_lt_upper_bound; lia). assert (B : n mod 16 < 16) by (apply Nat.mod_upper_bound; lia).
  destruct (digit_char _ A) as (E1 & N1 & _). destruct (digit_char _ B) as (E2 & _). unfold from_radix. rewrite (proj2 (Nat.eqb_neq _ _) N1), E1, E2. cbn [expect rbind].
  f_equal. symmetry. apply Nat.div_mod. lia.
Qed.
Lemma color_round : forall c, bytes c -> color_of (color_text c) = Ok c.
Proof.
  intros [r g b] (A & B & C). cbn [c_red c_green c_blue] in *. unfold color_of, color_text, hex2. cbn [c_red c_green c_blue app].
  rewrite Nat.eqb_refl, !pair_radix by assumption. reflexivity.
Qed.
Lemma digit_lt : forall b x, to_digit b = Some x -> x < 16.
Proof.
  intros b x H. unfold to_digit in H. destruct (Nat.leb 48 b && Nat.leb b 57) eqn:E1; [|destruct (Nat.leb 65 b && Nat.leb b 70) eqn:E2; [|destruct (Nat.leb 97 b && Nat.leb b 102) eqn:E3; [|discriminate]]];
    injection H as <-; match goal with H : _ && _ = true |- _ => apply andb_prop in H as (Ha & Hb); apply Nat.leb_le in Ha, Hb end; lia.
Qed.
Lemma radix_lt : forall a b x, from_radix a b = Ok x -> x < 256.
Proof.
  intros a b x H. unfold from_radix in H. destruct (Nat.eqb a 43); [apply expect_ok, digit_lt in H; lia|].
  apply rbind_ok in H as (u & Hu & H). apply rbind_ok in H as (v & Hv & H). injection H as <-. apply expect_ok, digit_lt in Hu, Hv. lia.
Qed.
Lemma color_bytes : forall s c, color_of s = Ok c -> bytes c.
Proof.
  intros s c H. unfold color_of in H. set (s' := match s with [] => s | _ => _ end) in H. destruct s' as [|a0 [|a1 [|a2 [|a3 [|a4 [|a5 l]]]]]]; try discriminate.
  apply rbind_ok in H as (r & Hr & H). apply rbind_ok in H as (g & Hg & H). apply rbind_ok in H as (u & Hu & H). injection H as <-.
  apply radix_lt in Hr, Hg, Hu. repeat split; assumption.
Qed.
Lemma color_stable : forall s c, color_of s = Ok c -> color_of (color_text c) = Ok c.
Proof. intros s c H. apply color_round. exact (color_bytes _ _ H). Qed.
Lemma color_inj : forall c d, bytes c -> bytes d -> color_text c = color_text d -> c = d.
Proof. intros c d A B E. apply color_round in A, B. rewrite E in A. congruence. Qed.
Lemma blend_bytes : forall a b, bytes a -> bytes b -> bytes (blend_colors a b).
Proof. intros [r g b] [r' g' b'] (A1 & A2 & A3) (B1 & B2 & B3). cbn in *. repeat split; cbn [c_red c_green c_blue blend_colors]; apply Nat.div_lt_upper_bound; lia. Qed.
Lemma plus_accepted : exists s c, color_of s = Ok c /\ exists b, nth_error s 1 = Some b /\ to_digit b = None.
Proof. exists [35; 43; 70; 48; 48; 48; 48], (Rgb 15 0 0). split; [reflexivity|]. exists 43. split; reflexivity. Qed.
