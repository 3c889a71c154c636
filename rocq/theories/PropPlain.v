(** C72: plain allocations use a value that nobody set. *)
From Verif Require Import Word Res Mem ChainModel ChainSpec ChainProps ChainWalk ChainCap ChainMore ChainExtra ChainRun PlainModel PlainProofs.
From Coq Require Import ZArith List Bool Lia.
Import ListNotations.
Open Scope Z_scope.

(** When the value found is 0 or 1 the call is the one that C01-C14 are about, without alignment. *)
Theorem C72_plain : forall fuel g gr reg n s, reg <= 1 -> chain_alloc fuel g gr reg n s = alloc_align fuel g gr 0 n s.
Proof. exact plain_none. Qed.
Print Assumptions C72_plain.

(** When it is a power of two and the sum does not wrap, the block is good, although larger and aligned without need. *)
Theorem C72_power : forall g s o k n gr fuel r s', reach g s o -> 0 <= k -> valid g s o (OAlloc (2 ^ k) n gr) ->
  chain_alloc fuel g gr (2 ^ k) n (clear_ev s) = Ok (r, s') -> r <> 0 ->
  exists o', reach g s' o' /\ In (mkBlk r n (2 ^ k)) (live o') /\ exists u, usable s' r u /\ n <= u /\ (1 <= k -> r mod 2 ^ k = 0).
Proof. exact plain_good. Qed.
Print Assumptions C72_power.

(** The full statement asks for the same result whatever the value is.  A large value makes every request fail, in every state of every user
    chain, even an empty one ... *)
Theorem C72_null_refuted : forall g s o n gr fuel, reach g s o -> csrc g = false -> 0 < n < 2 ^ 61 -> fuel_ok g o (OAlloc (2 ^ 62) n gr) fuel ->
  chain_alloc fuel g gr (2 ^ 62) n (clear_ev s) = Ok (0, clear_ev s).
Proof. exact plain_big. Qed.
Print Assumptions C72_null_refuted.

(** ... other values give a block that is too short (3: 70 bytes for 72; 9: 99 for 100) or make the allocator write outside its memory. *)
Theorem C72_short_refuted : reach gu SU OU /\
  (exists r s', chain_alloc 200 gu None 3 72 (clear_ev SU) = Ok (r, s') /\ r <> 0 /\ usable s' r 70) /\
  (exists r s', chain_alloc 200 gu None 9 100 (clear_ev SU) = Ok (r, s') /\ r <> 0 /\ usable s' r 99) /\
  chain_alloc 200 gu None (2 ^ 64 - 90) 100 (clear_ev SU) = UB /\
  exists r s', chain_alloc 200 gu None 0 100 (clear_ev SU) = Ok (r, s') /\ r <> 0 /\ usable s' r 112.
Proof.
  split; [exact reach_U|]. split; [|split; [|split; [vm_compute; reflexivity|]]].
  - exists 1049082, (after 200 gu (OAlloc 3 72 None) SU). split; [rewrite plain_is; apply step_at; vm_compute; congruence|]. split; [discriminate|]. apply usable_at; vm_compute; congruence.
  - exists 1049085, (after 200 gu (OAlloc 9 100 None) SU). split; [rewrite plain_is; apply step_at; vm_compute; congruence|]. split; [discriminate|]. apply usable_at; vm_compute; congruence.
  - exists 1049072, (after 200 gu (OAlloc 0 100 None) SU). split; [rewrite plain_is; apply step_at; vm_compute; congruence|]. split; [discriminate|]. apply usable_at; vm_compute; congruence.
Qed.
Print Assumptions C72_short_refuted.

Example C72_nontrivial : reach gu SU OU /\ valid gu SU OU (OAlloc (2 ^ 6) 200 None) /\ csrc gu = false /\ fuel_ok gu OU (OAlloc (2 ^ 62) 16 None) (Z.to_nat 5000) /\
  result 200 gu (OAlloc (2 ^ 6) 200 None) SU = 1049088.
Proof.
  split; [exact reach_U|]. split; [apply validb_ok; vm_compute; reflexivity|]. split; [reflexivity|]. split; [vm_compute; reflexivity|vm_compute; reflexivity].
Qed.
