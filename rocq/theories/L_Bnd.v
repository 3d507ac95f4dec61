(** Magnitude bounds for floats, by powers of two. *)
From Coq Require Import ZArith Reals Psatz Bool List Lia.
From Flocq Require Import Core.Core IEEE754.BinarySingleNaN.
From Verif Require Import Num F64 L_F64 P_Converge.
Open Scope R_scope.

Definition bnd (x : F) (k : Z) : Prop := is_finite x = true /\ Rabs (B2R x) <= bpow radix2 k.

Lemma b_fin x k : bnd x k -> is_finite x = true. Proof. now intros []. Qed.
Lemma b_le x j k : bnd x j -> (j <= k)%Z -> bnd x k.
Proof. intros [A B] H. split; auto. eapply Rle_trans; [exact B|now apply bpow_le]. Qed.
Lemma fmt_bp k : (0 <= k)%Z -> fmt (bpow radix2 k).
Proof. intros H. apply generic_format_bpow. unfold SpecFloat.fexp, SpecFloat.emin. lia. Qed.
Lemma rnd_bnd r k : (0 <= k)%Z -> Rabs r <= bpow radix2 k -> Rabs (rnd r) <= bpow radix2 k.
Proof.
  intros K H. apply Rabs_le_inv in H. apply Rabs_le. split.
  - apply rnd_ge_fmt; [apply fmt_opp; now apply fmt_bp|lra].
  - apply rnd_le_fmt; [now apply fmt_bp|lra].
Qed.
Lemma bp_le k : (k <= 1000)%Z -> bpow radix2 k <= bpow radix2 1023.
Proof. intros H. apply bpow_le. lia. Qed.
Lemma bp_2 k : bpow radix2 (k + 1) = 2 * bpow radix2 k.
Proof. rewrite bpow_plus, bpow_1. simpl. lra. Qed.
Lemma b_add x y j k : bnd x j -> bnd y k -> (0 <= Z.max j k + 1 <= 1000)%Z -> bnd (fadd x y) (Z.max j k + 1).
Proof.
  intros X Y H. apply (b_le x j (Z.max j k)) in X; [|lia]. apply (b_le y k (Z.max j k)) in Y; [|lia].
  destruct X as [Fx Bx], Y as [Fy By].
  assert (S : Rabs (B2R x + B2R y) <= bpow radix2 (Z.max j k + 1)).
  { rewrite bp_2. eapply Rle_trans; [apply Rabs_triang|]. lra. }
  destruct (fadd_fin x y Fx Fy) as [A V]; [eapply Rle_trans; [exact S|apply bp_le; lia]|].
  split; [exact A|]. rewrite V. apply rnd_bnd; [lia|exact S].
Qed.
Lemma b_sub x y j k : bnd x j -> bnd y k -> (0 <= Z.max j k + 1 <= 1000)%Z -> bnd (fsub x y) (Z.max j k + 1).
Proof.
  intros X Y H. apply (b_le x j (Z.max j k)) in X; [|lia]. apply (b_le y k (Z.max j k)) in Y; [|lia].
  destruct X as [Fx Bx], Y as [Fy By].
  assert (S : Rabs (B2R x - B2R y) <= bpow radix2 (Z.max j k + 1)).
  { rewrite bp_2. unfold Rminus. eapply Rle_trans; [apply Rabs_triang|]. rewrite Rabs_Ropp. lra. }
  destruct (fsub_fin x y Fx Fy) as [A V]; [eapply Rle_trans; [exact S|apply bp_le; lia]|].
  split; [exact A|]. rewrite V. apply rnd_bnd; [lia|exact S].
Qed.
Lemma b_mul x y j k : bnd x j -> bnd y k -> (0 <= j + k <= 1000)%Z -> bnd (fmul x y) (j + k).
Proof.
  intros [Fx Bx] [Fy By] H.
  assert (S : Rabs (B2R x * B2R y) <= bpow radix2 (j + k)).
  { rewrite bpow_plus, Rabs_mult. apply Rmult_le_compat; auto using Rabs_pos. }
  destruct (fmul_fin x y Fx Fy) as [A V]; [eapply Rle_trans; [exact S|apply bp_le; lia]|].
  split; [exact A|]. rewrite V. apply rnd_bnd; [lia|exact S].
Qed.
Lemma b_div x y k : bnd x k -> is_finite y = true -> 1 <= Rabs (B2R y) -> (0 <= k <= 1000)%Z -> bnd (fdiv x y) k.
Proof.
  intros [Fx Bx] Fy By H.
  assert (Ny : B2R y <> 0) by (intros E; rewrite E, Rabs_R0 in By; lra).
  assert (S : Rabs (B2R x / B2R y) <= bpow radix2 k).
  { unfold Rdiv. rewrite Rabs_mult, Rabs_inv. apply Rle_div_l; [lra|].
    pose proof (bpow_ge_0 radix2 k). nra. }
  destruct (fdiv_fin x y Fx Fy Ny) as [A V]; [eapply Rle_trans; [exact S|apply bp_le; lia]|].
  split; [exact A|]. rewrite V. apply rnd_bnd; [lia|exact S].
Qed.
Lemma b_abs x k : bnd x k -> bnd (fabs x) k.
Proof. intros [A B]. destruct (fabs_fin x A) as [C D]. split; auto. rewrite D, Rabs_Rabsolu. exact B. Qed.
Lemma small_ford z k : fisnan z = false -> Rabs (ford z) <= bpow radix2 k -> (k <= 1000)%Z -> bnd z k.
Proof.
  intros N B H. assert (Rabs (ford z) < BIG) by (eapply Rle_lt_trans; [exact B|]; apply bpow_lt; lia).
  assert (Fz : is_finite z = true) by (apply ford_fin_inv; auto; apply Rabs_lt_inv in H0; lra).
  split; auto. now rewrite <- (ford_fin z Fz).
Qed.
Lemma b_max x y j k : bnd x j -> bnd y k -> (Z.max j k <= 1000)%Z -> bnd (fmax x y) (Z.max j k).
Proof.
  intros X Y H. apply (b_le x j (Z.max j k)) in X; [|lia]. apply (b_le y k (Z.max j k)) in Y; [|lia].
  destruct X as [Fx Bx], Y as [Fy By]. destruct (fmax_cases x y) as [A B]; auto using fin_nan.
  apply small_ford; auto. rewrite B, !ford_fin by auto. unfold Rmax. destruct (Rle_dec _ _); auto.
Qed.
Lemma b_min x y j k : bnd x j -> bnd y k -> (Z.max j k <= 1000)%Z -> bnd (fmin x y) (Z.max j k).
Proof.
  intros X Y H. apply (b_le x j (Z.max j k)) in X; [|lia]. apply (b_le y k (Z.max j k)) in Y; [|lia].
  destruct X as [Fx Bx], Y as [Fy By]. destruct (fmin_cases x y) as [A B]; auto using fin_nan.
  apply small_ford; auto. rewrite B, !ford_fin by auto. unfold Rmin. destruct (Rle_dec _ _); auto.
Qed.
(** A decidable sufficient condition for literals. *)
Lemma b_lit x : (is_finite x && fle (fofZ (-1)) x && fle x (fofZ 1) = true)%bool -> bnd x 0.
Proof.
  intros H. apply andb_prop in H. destruct H as [H C]. apply andb_prop in H. destruct H as [A B].
  split; auto. apply fle_true in B. apply fle_true in C. rewrite ford_fofZ, (ford_fin x A) in B, C by lia. simpl. apply Rabs_le. lra.
Qed.
Lemma b_lit8 x : (is_finite x && fle (fofZ (-256)) x && fle x (fofZ 256) = true)%bool -> bnd x 8.
Proof.
  intros H. apply andb_prop in H. destruct H as [H C]. apply andb_prop in H. destruct H as [A B].
  split; auto. apply fle_true in B. apply fle_true in C. rewrite ford_fofZ, (ford_fin x A) in B, C by lia.
  change (bpow radix2 8) with (IZR 256). apply Rabs_le. lra.
Qed.
Lemma b_sqrt x k : bnd x k -> 0 <= B2R x -> (0 <= k <= 1000)%Z -> bnd (fsqrt x) k.
Proof.
  intros [A B] P H. unfold fsqrt. destruct (Bsqrt_correct 53 1024 _ _ mode_NE x) as (V & Fi & _).
  assert (Fs : is_finite (Bsqrt mode_NE x) = true).
  { rewrite Fi. destruct x as [s|s| |s m e]; auto; try discriminate A.
    destruct s; auto. exfalso. assert (B2R (B754_finite true m e e0) < 0) by (apply F2R_lt_0; reflexivity). lra. }
  split; auto. rewrite V. apply rnd_bnd; [lia|]. rewrite Rabs_pos_eq by apply sqrt_pos.
  rewrite Rabs_pos_eq in B by exact P. pose proof (bpow_ge_0 radix2 k).
  assert (1 <= bpow radix2 k) by (apply (bpow_le radix2 0); lia).
  rewrite <- (sqrt_square (bpow radix2 k)) by lra. apply sqrt_le_1_alt. nra.
Qed.
