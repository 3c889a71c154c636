(** Property C88, third part: a handler that allocates inside an allocation of a chain without lock. *)
From Verif Require Import Word Res Mem SizeClassModel ChainModel ChainSpec ChainRun SignalChain.
From Coq Require Import ZArith List Bool Lia.
Import ListNotations.
Open Scope Z_scope.

(** C88 (refuted). An allocation has found the free chunk [r] and is stopped before it takes [r] out of its list
    ([find_free_chunk] is [find_only], which writes nothing, then [take_out]).  A handler asks the chain of its thread
    for the same size, and [r] is not to be split.  It gets the block of [r], the one that the stopped call is about to
    give out too; back from the handler, the stopped call writes through the null links of [r].  Nothing is mapped at 0. *)
Theorem C88_chain_refuted : forall fuel g grant n s r s1 s' cs p s2, n <> 0 -> is_huge g n = false ->
  find_only fuel g n s = Ok (r, s1) -> 0 < r -> accb (srng s) 24 8 = false ->
  free_list_remove g r s = Ok (tt, s') -> get_size r s' = Ok (cs, s') -> sub64 cs (align16 (calc_chunk_size n)) < 32 ->
  alloc_align fuel g grant 0 n s1 = Ok (p, s2) ->
  s1 = s /\ find_free_chunk fuel g n s = take_out g r s1 /\ p = r + 16 /\ take_out g r s2 = UB.
Proof. exact handler_chain. Qed.
Print Assumptions C88_chain_refuted.

(** After a history with a freed block, calls of 272 bytes meet all of it. *)
Definition out88 : st := state_of (free_list_remove gu 1048736 SG) SG.
Example C88_chain_nontrivial : reach gu SG OG /\ valid gu SG OG (OAlloc 0 272 None) /\ is_huge gu 272 = false /\
  find_only 200 gu 272 SG = Ok (1048736, SG) /\ accb (srng SG) 24 8 = false /\
  free_list_remove gu 1048736 SG = Ok (tt, out88) /\ get_size 1048736 out88 = Ok (288, out88) /\
  sub64 288 (align16 (calc_chunk_size 272)) = 0 /\ exists s2, alloc_align 200 gu None 0 272 SG = Ok (1048752, s2).
Proof.
  split; [apply fin_reach; vm_compute; reflexivity|]. split; [apply validb_ok; vm_compute; reflexivity|]. split; [vm_compute; reflexivity|].
  split; [apply gives_same; [apply find_reads|vm_compute; reflexivity]|].
  split; [vm_compute; reflexivity|]. split; [apply done_ok; vm_compute; reflexivity|].
  split; [apply gives_same; [apply rd_load|vm_compute; reflexivity]|]. split; [vm_compute; reflexivity|].
  apply gives_ok. vm_compute. reflexivity.
Qed.
