(** A trigonometric environment that is exact at zero can be replaced by one that computes there. *)
From Coq Require Import ZArith Reals Bool List Lia FunctionalExtensionality.
From Flocq Require Import Core.Core IEEE754.BinarySingleNaN.
From Verif Require Import Num F64 L_F64 S_Sync.
Open Scope Z_scope.

Definition is0 (x : F) : bool := match x with B754_zero false => true | _ => false end.
Definition is1 (x : F) : bool := match x with B754_finite false m e _ => Pos.eqb m 4503599627370496 && Z.eqb e (-52) | _ => false end.
Definition at0 (tr : Trig) : Trig := {|
  tsin := fun x => if is0 x then fofZ 0 else tsin tr x;
  tcos := fun x => if is0 x then fofZ 1 else tcos tr x;
  texp := texp tr;
  tatan2 := fun y x => if is0 y then (if is1 x then fofZ 0 else tatan2 tr y x) else tatan2 tr y x |}.

Lemma is0_eq x : is0 x = true -> x = fofZ 0.
Proof. destruct x as [[|]| | |]; try discriminate. intros _. reflexivity. Qed.
Lemma is1_eq x : is1 x = true -> x = fofZ 1.
Proof.
  destruct x as [| | |[|] m e H]; try discriminate. unfold is1. rewrite andb_true_iff, Pos.eqb_eq, Z.eqb_eq. intros [-> ->].
  apply B2SF_inj. vm_compute. reflexivity.
Qed.
Lemma at0_id tr : trig_zero tr -> tr = at0 tr.
Proof.
  intros [S C A]. destruct tr as [s c e a]. unfold at0. cbn in *. f_equal.
  - extensionality x. destruct (is0 x) eqn:E; auto. apply is0_eq in E. now subst.
  - extensionality x. destruct (is0 x) eqn:E; auto. apply is0_eq in E. now subst.
  - extensionality y. extensionality x. destruct (is0 y) eqn:E; auto. destruct (is1 x) eqn:E1; auto.
    apply is0_eq in E. apply is1_eq in E1. now subst.
Qed.

(** Such environments exist. *)
Definition flatTrig : Trig := {| tsin := fun _ => fofZ 0; tcos := fun _ => fofZ 1; texp := fun _ => fofZ 1; tatan2 := fun _ _ => fofZ 0 |}.
Lemma flat_zero : trig_zero flatTrig. Proof. split; reflexivity. Qed.
Lemma flat_sane : trig_sane flatTrig.
Proof.
  destruct (fofZ_fin 0 ltac:(lia)) as [F0 V0]. destruct (fofZ_fin 1 ltac:(lia)) as [F1 V1].
  split; intros; cbn [tsin tcos tatan2 flatTrig]; rewrite ?V0, ?V1; split; auto; rewrite ?Rabs_R0, ?Rabs_R1; try apply Rle_refl; try apply Rle_0_1.
  assert (P : fle (fofZ 0) (fhalfpi 2) = true) by (vm_compute; reflexivity).
  apply fle_true in P. rewrite ford_fofZ, ford_fin in P by (reflexivity || lia). tauto.
Qed.
