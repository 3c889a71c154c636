(** 64-bit words: explicit wrap-around and sign conversion. *)
From Coq Require Import ZArith Lia List Bool.
From Coq Require Export ZifyBool.
Import ListNotations.
Open Scope Z_scope.

Ltac Zify.zify_post_hook ::= Z.div_mod_to_equations.

(** Value of a C expression of type [size_t] (64-bit, unsigned). *)
Definition W64 : Z := 18446744073709551616. (* 2^64 *)
Definition w64 (x : Z) : Z := x mod W64.

(** Conversion of a [size_t] into [ssize_t] (two's complement). *)
Definition S63 : Z := 9223372036854775808. (* 2^63 *)
Definition s64 (x : Z) : Z := if x <? S63 then x else x - W64.

Definition add64 (x y : Z) : Z := w64 (x + y).
Definition sub64 (x y : Z) : Z := w64 (x - y).

Lemma w64_small x : 0 <= x < W64 -> w64 x = x.
Proof. intros H. unfold w64. apply Z.mod_small. exact H. Qed.

Lemma w64_range x : 0 <= w64 x < W64.
Proof. unfold w64, W64. apply Z.mod_pos_bound. lia. Qed.

Lemma add64_small x y : 0 <= x + y < W64 -> add64 x y = x + y.
Proof. intros H. unfold add64. apply w64_small. exact H. Qed.

Lemma sub64_small x y : 0 <= x - y < W64 -> sub64 x y = x - y.
Proof. intros H. unfold sub64. apply w64_small. exact H. Qed.

Lemma s64_small x : 0 <= x < S63 -> s64 x = x.
Proof. intros H. unfold s64. destruct (Z.ltb_spec x S63); lia. Qed.

Global Opaque W64 S63.

(** The numeric values, for [lia]. *)
Lemma W64_val : W64 = 18446744073709551616.
Proof. reflexivity. Qed.
Lemma S63_val : S63 = 9223372036854775808.
Proof. reflexivity. Qed.
