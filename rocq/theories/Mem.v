(** Byte memory with little-endian loads and stores. *)
From Verif Require Import Word.
From Coq Require Import ZArith Lia List Bool.
Import ListNotations.
Open Scope Z_scope.

(** A memory gives the content of every address; reads are reduced modulo 256. *)
Definition mem := Z -> Z.

Definition upd (m : mem) (a v : Z) : mem := fun x => if x =? a then v else m x.

(** Little-endian load of [n] bytes at [a]. *)
Fixpoint ld (m : mem) (a : Z) (n : nat) : Z :=
  match n with
  | O => 0
  | S k => (m a) mod 256 + 256 * ld m (a + 1) k
  end.

(** Little-endian store of the [n] low bytes of [v] at [a]. *)
Fixpoint sto (m : mem) (a : Z) (n : nat) (v : Z) : mem :=
  match n with
  | O => m
  | S k => sto (upd m a (v mod 256)) (a + 1) k (v / 256)
  end.

Lemma ld_range m n : forall a, 0 <= ld m a n < 256 ^ Z.of_nat n.
Proof.
  induction n as [|n IH]; intros a.
  - cbn. lia.
  - rewrite Nat2Z.inj_succ, Z.pow_succ_r by lia.
    cbn [ld]. specialize (IH (a + 1)).
    assert (0 <= m a mod 256 < 256) by (apply Z.mod_pos_bound; lia). nia.
Qed.

Lemma sto_other m n : forall a v x, (x < a \/ a + Z.of_nat n <= x) -> sto m a n v x = m x.
Proof.
  revert m. induction n as [|n IH]; intros m a v x H.
  - reflexivity.
  - cbn [sto]. rewrite IH by lia. unfold upd. destruct (Z.eqb_spec x a); [lia|reflexivity].
Qed.

Lemma ld_ext m m' n : forall a,
  (forall x, a <= x < a + Z.of_nat n -> m' x = m x) -> ld m' a n = ld m a n.
Proof.
  induction n as [|n IH]; intros a H.
  - reflexivity.
  - cbn [ld]. rewrite (H a) by lia. f_equal. f_equal. apply IH. intros x Hx. apply H. lia.
Qed.

Lemma ld_sto_other m a n v b k :
  (b + Z.of_nat k <= a \/ a + Z.of_nat n <= b) -> ld (sto m a n v) b k = ld m b k.
Proof.
  intros H. apply ld_ext. intros x Hx. apply sto_other. lia.
Qed.

Lemma ld_sto_same m n : forall a v, ld (sto m a n v) a n = v mod 256 ^ Z.of_nat n.
Proof.
  revert m. induction n as [|n IH]; intros m a v.
  - cbn. rewrite Z.mod_1_r. reflexivity.
  - rewrite Nat2Z.inj_succ, Z.pow_succ_r by lia.
    cbn [ld sto]. rewrite IH. rewrite sto_other by lia.
    unfold upd. rewrite Z.eqb_refl. rewrite Z.mod_mod by lia.
    symmetry. rewrite Z.rem_mul_r by (try apply Z.pow_nonzero; lia). reflexivity.
Qed.

Lemma ld_sto_same_small m n a v :
  0 <= v < 256 ^ Z.of_nat n -> ld (sto m a n v) a n = v.
Proof. intros H. rewrite ld_sto_same. apply Z.mod_small. exact H. Qed.

(** Two memories agree on the [n] bytes at [a]. *)
Definition agree (m m' : mem) (a n : Z) : Prop := forall x, a <= x < a + n -> m' x = m x.
