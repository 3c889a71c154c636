(** C80: a process that creates and destroys persistent memory pools loses nothing. *)
From Verif Require Import Word Res PmemModel PmemSpec PoolModel PoolSpec PoolProofs PoolEx.
From Coq Require Import ZArith List Bool Lia Permutation.
Import ListNotations.
Open Scope Z_scope.

(** The process owns the descriptors of its pools and those of the creations that failed, the files these left open, and the pages of its pools, which
    do not overlap; nothing else.  Missing for the full statement: [L] and [F] may be not empty, below. *)
Theorem C80_ledger_partial : forall k w P L F, 1 <= k <= 30 -> lreach k w P L F ->
  Permutation (wheap w) (map pl_desc P ++ L) /\ Permutation (wfd w) F /\ (forall x, wpage w x = true <-> exists p, In p P /\ covers k p x) /\
  forall p q x, In p P -> In q P -> pl_desc p <> pl_desc q -> covers k p x -> ~ covers k q x.
Proof. exact ledger. Qed.
Print Assumptions C80_ledger_partial.
(** Two pools, the first used, then a creation without room, then the first pool destroyed. *)
Example C80_ledger_nontrivial : lreach 12 W5 [mkPool 200 1048576 8192] [300] [3] /\ wheap W5 = [300; 200] /\ wfd W5 = [3] /\ wpage W5 256 = true /\ wpage W5 16 = false.
Proof. split; [exact reach_5|]. vm_compute. tauto. Qed.

(** If no creation failed and every pool was destroyed, nothing is left: no descriptor, no open file, no page. *)
Theorem C80_clean_partial : forall k w, 1 <= k <= 30 -> lreach k w [] [] [] -> wheap w = [] /\ wfd w = [] /\ forall x, wpage w x = false.
Proof. exact clean. Qed.
Print Assumptions C80_clean_partial.
Example C80_clean_nontrivial : lreach 12 W6 [] [] [] /\ wpage W1 16 = true /\ wheap W1 = [100].
Proof. split; [exact reach_6|]. vm_compute. tauto. Qed.

(** Destroying a pool, with its size or any size of as many pages, unmaps all of it and no page of another pool, whatever was taken from it. *)
Theorem C80_destroy : forall k w P1 p P2 L F n, 1 <= k <= 30 -> lreach k w (P1 ++ p :: P2) L F -> pl_size p - 2 ^ k < n <= pl_size p -> pl_base p <> MAP_FAILED ->
  exists w', pool_destroy k (pl_desc p) n w = Ok (0, w') /\ ~ In (pl_desc p) (wheap w') /\ (forall x, covers k p x -> wpage w' x = false) /\
    forall q x, In q (P1 ++ P2) -> covers k q x -> wpage w' x = true.
Proof. exact destroys. Qed.
Print Assumptions C80_destroy.
Example C80_destroy_nontrivial : lreach 12 W3 ([mkPool 200 1048576 8192] ++ mkPool 100 65536 4096 :: []) [] [] /\ pptr (wdesc W3 100) = 65636 /\
  covers 12 (mkPool 100 65536 4096) 16 /\ covers 12 (mkPool 200 1048576 8192) 257.
Proof. split; [exact reach_3|]. split; [vm_compute; reflexivity|]. unfold covers, MAP_FAILED. cbn [pl_base pl_size]. change (2 ^ 12) with 4096. lia. Qed.

(** When no file can be opened the creation answers NULL and opens or maps nothing: -1 is not tested, but posix_fadvise refuses it. *)
Theorem C80_no_file : forall k a size w d sz w', a_fd a < 0 -> pool_create k a size w = Ok (d, sz, w') -> d = 0 /\ wfd w' = wfd w /\ wpage w' = wpage w.
Proof. exact no_file. Qed.
Print Assumptions C80_no_file.
Example C80_no_file_nontrivial : exists sz w', pool_create 12 (mkAn 400 true KDir true (-1) 0 0 65536) 4096 W5 = Ok (0, sz, w').
Proof. eexists. eexists. unfold pool_create. vm_compute. reflexivity. Qed.

(** The creation of C47 is this one on a directory, when the system refuses nothing. *)
Theorem C80_as_C47 : forall k a size w, a_mem a <> 0 -> a_access a = true -> a_kind a = KDir -> 0 <= a_fd a -> a_adv a = 0 -> a_all a = 0 -> a_map a <> 0 ->
  forall D sz, create k size (a_map a) = Ok (Some D, sz) -> 0 < sz < 2 ^ 63 -> exists w', pool_create k a size w = Ok (a_mem a, sz, w') /\ wdesc w' (a_mem a) = D.
Proof. exact as_C47. Qed.
Print Assumptions C80_as_C47.
Example C80_as_C47_nontrivial : create 12 5000 65536 = Ok (Some (mkPd 0 8192 65536 65536), 8192).
Proof. vm_compute. reflexivity. Qed.

(** The full statement is false: a creation on a directory that fails once the file is open (70, 77) leaves the descriptor, which no pool has, and the
    open file, and both stay whatever the process does later. *)
Theorem C80_left_behind_refuted : forall k w P L F a size sz w1 w' P' L' F', 1 <= k <= 30 -> lreach k w P L F -> 0 <= size < 2 ^ 64 -> sys_ok k size w a -> opened a ->
  pool_create k a size w = Ok (0, sz, w1) -> lsteps k w1 P (a_mem a :: L) (a_fd a :: F) w' P' L' F' ->
  In (a_mem a) (wheap w') /\ ~ In (a_mem a) (map pl_desc P') /\ In (a_fd a) (wfd w').
Proof. exact stays. Qed.
Print Assumptions C80_left_behind_refuted.
Example C80_left_behind_nontrivial : exists sz w1, lreach 12 W3 [mkPool 200 1048576 8192; mkPool 100 65536 4096] [] [] /\ sys_ok 12 4096 W3 A4 /\ opened A4 /\
  pool_create 12 A4 4096 W3 = Ok (0, sz, w1).
Proof. exists 4096, W4. split; [exact reach_3|]. split; [exact ok_4|]. split; [exact open_4|exact run_4]. Qed.

(** So [n] attempts on a file system without room leave [n] open files and [n] descriptors, and no pool. *)
Theorem C80_exhaust_refuted : forall n, Z.of_nat n < 2 ^ 46 -> exists w L F, lreach 12 w [] L F /\ length (wheap w) = n /\ length (wfd w) = n.
Proof. exact exhaust. Qed.
Print Assumptions C80_exhaust_refuted.

(** Without memory for the descriptor the creation writes at NULL (30). *)
Theorem C80_no_memory_refuted : forall k a size w, a_mem a = 0 -> pool_create k a size w = UB.
Proof. exact create_null. Qed.
Print Assumptions C80_no_memory_refuted.
(** If the path disappears between access and stat the type is read from a structure that was never written (132, 135). *)
Theorem C80_stat_refuted : forall k a size w, a_mem a <> 0 -> a_access a = true -> a_kind a = KErr -> pool_create k a size w = UB.
Proof. exact create_stat. Qed.
Print Assumptions C80_stat_refuted.

(** A pool asked for with 2^e + 1 bytes has 2^e (C47); destroying it with the size asked for instead of the one written back unmaps the page after it,
    whoever has it. *)
Theorem C80_neighbour_refuted : forall k e b w, 1 <= k <= 24 -> 24 <= e <= 62 -> 0 < b -> b mod 2 ^ k = 0 -> forall d, In d (wheap w) -> pstart (wdesc w d) = b ->
  roundup k (2 ^ e + 1) = Ok (2 ^ e) /\ exists w', pool_destroy k d (2 ^ e + 1) w = Ok (0, w') /\ wpage w' ((b + 2 ^ e) / 2 ^ k) = false.
Proof. exact neighbour. Qed.
Print Assumptions C80_neighbour_refuted.
Example C80_neighbour_nontrivial : lreach 12 W7 [mkPool 500 16842752 8192; mkPool 100 65536 16777216] [] [] /\ In 100 (wheap W7) /\ pstart (wdesc W7 100) = 65536 /\
  covers 12 (mkPool 500 16842752 8192) ((65536 + 2 ^ 24) / 2 ^ 12) /\ wpage W7 ((65536 + 2 ^ 24) / 2 ^ 12) = true.
Proof.
  split; [exact reach_7|]. split; [vm_compute; tauto|]. split; [vm_compute; reflexivity|]. split; [|vm_compute; reflexivity]. unfold covers, MAP_FAILED. cbn [pl_base pl_size].
  change ((65536 + 2 ^ 24) / 2 ^ 12) with 4112. change (2 ^ 12) with 4096. lia.
Qed.
