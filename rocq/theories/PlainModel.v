(** Plain allocations of a chain, sctk_allocator.c 1399-1422.  Model only, no proofs. *)
From Verif Require Import Word Res Mem ChainModel.
From Coq Require Import ZArith.
Open Scope Z_scope.

(** 1402-1408 [sctk_net_memory_allocation_hook]: the function ends without a return statement, with or without a registered hook.  The value
    the caller then uses is undefined; [reg] stands for what it finds.  (The C standard even lets the program do anything here.) *)
Definition net_hook (reg n : Z) : Z := reg.
(** 1415-1422 [sctk_alloc_chain_alloc] *)
Definition chain_alloc (fuel : nat) (g : cfg) (grant : option Z) (reg n : Z) : M Z := alloc_align fuel g grant (net_hook reg n) n.
