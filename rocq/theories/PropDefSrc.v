(** C41: the default memory source. *)
From Verif Require Import Word Res SizeClassModel DefSrcModel DefSrcProofs.
From Coq Require Import ZArith List Bool Lia.
Import ListNotations.
Open Scope Z_scope.

(** C41. With a heap of 4 MB or more, initialisation never returns, whatever the number of steps. *)
Theorem C41_init_diverges_refuted : forall base k fuel, 2 <= k -> 0 <= base -> base + k * 2097152 < 2 ^ 48 -> base mod 2097152 = 0 ->
  base / 2 ^ 40 = (base + k * 2097152 - 1) / 2 ^ 40 -> def_init fuel base (k * 2097152) = OutOfFuel.
Proof. exact init_diverges. Qed.
Print Assumptions C41_init_diverges_refuted.

(** C41. With a heap of 2 MB, a request of 2 MB is refused and a larger one never returns. *)
Theorem C41_never_serves_refuted : forall base fuel s k, 0 <= base -> base + 2097152 < 2 ^ 48 -> base mod 2097152 = 0 -> (2 <= fuel)%nat ->
  def_init fuel base 2097152 = Ok s -> 1 <= k <= 2 ^ 40 -> def_request fuel (k * 2097152) s = if k =? 1 then Ok None else OutOfFuel.
Proof. exact small_never_serves. Qed.
Print Assumptions C41_never_serves_refuted.

(** C41. What does hold: initialisation with a heap of 2 MB returns. *)
Theorem C41_smallest_heap_partial : forall base fuel, 0 <= base -> base + 2097152 < 2 ^ 48 -> base mod 2097152 = 0 -> (2 <= fuel)%nat ->
  exists s, def_init fuel base 2097152 = Ok s /\ dlists s = (fun j => if j =? 0 then [(base, 2093056)] else []).
Proof. exact small_init. Qed.
Print Assumptions C41_smallest_heap_partial.

(** The heap the library was meant to use, 128 GB at 3 GB (sctk_alloc_common.h 102-104, sctk_alloc_posix.c 205). *)
Example C41_nontrivial : forall fuel, def_init fuel 3221225472 (65536 * 2097152) = OutOfFuel.
Proof. intros fuel. apply init_diverges; vm_compute; try reflexivity; discriminate. Qed.
