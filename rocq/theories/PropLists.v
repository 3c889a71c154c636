(** Properties C39 and C40: free lists and statistics. *)
From Verif Require Import Word Res Mem SizeClassModel ChainModel ChainSpec ChainProps ChainWalk ChainLists ChainRun.
From Coq Require Import ZArith List Bool Lia.
Import ListNotations.
Open Scope Z_scope.

(** C39. Each of the 48 lists is a ring: forwards and backwards walks from its head come back to the head and
    visit the same chunks in opposite orders, without repetition; these are exactly the free chunks filed in that
    list, and the "not empty" byte is exact. *)
Theorem C39_lists_well_formed : forall g s o, reach g s o -> forall i, 0 <= i < 48 -> exists l,
  ring (S (Z.to_nat (held o))) (smem s) 16 (list_head g i) (ld (smem s) (list_head g i + 16) 8) = Some l /\
  ring (S (Z.to_nat (held o))) (smem s) 24 (list_head g i) (ld (smem s) (list_head g i + 24) 8) = Some (rev l) /\
  NoDup l /\
  (forall a, In a l <-> exists r c, In r (segs o) /\ In (a, c) (free_in (smem s) r) /\ filed c i) /\
  (list_flag g (smem s) i = 0 <-> l = []).
Proof. exact lists_ok. Qed.
Print Assumptions C39_lists_well_formed.

Example C39_nontrivial : reach gu SG OG /\ free_in (smem SG) (1048576, 4096) = [(1048736, 288); (1049056, 3600)] /\
  ring 50 (smem SG) 16 (list_head gu 8) (ld (smem SG) (list_head gu 8 + 16) 8) = Some [1048736].
Proof. split; [exact reach_G|]. split; vm_compute; reflexivity. Qed.

(** C40. The statistics give the exact number of free chunks up to 2 MB, their total size and the largest size
    ([small_free] lists them); the smallest size is always reported as 0. *)
Theorem C40_statistics_exact_partial : forall g s o fuel, reach g s o -> held o < Z.of_nat fuel ->
  let L := small_free (smem s) o in
  chain_get_stat fuel g s = Ok (mkStat (Z.of_nat (length L)) (total L) (zmax (map snd L)) 0, s).
Proof. exact stat_exact. Qed.
Print Assumptions C40_statistics_exact_partial.

Example C40_nontrivial : reach gu SG OG /\ held OG < Z.of_nat (Z.to_nat 5000) /\ small_free (smem SG) OG = [(1048736, 288); (1049056, 3600)].
Proof. split; [exact reach_G|]. split; [rewrite Z2Nat.id by lia; vm_compute; reflexivity|vm_compute; reflexivity]. Qed.

(** C40 is false for free chunks above 2 MB: an empty chain with 4 MB reports no free memory. *)
Theorem C40_above_2MB_refuted : exists s o, reach gu s o /\ segs o = [(2 * MB2, 2 * MB2)] /\ blocks o = [] /\
  exists s', chain_get_stat 200 gu s = Ok (mkStat 0 0 0 0, s').
Proof.
  set (h := [ORefill (2 * MB2) (2 * MB2)]). exists (fin_s 200 gu h), (fin_o 200 gu h). split; [apply fin_reach; vm_compute; reflexivity|].
  split; [vm_compute; reflexivity|]. split; [vm_compute; reflexivity|].
  assert (E : match chain_get_stat 200 gu (fin_s 200 gu h) with Ok (mkStat 0 0 0 0, _) => true | _ => false end = true) by (vm_compute; reflexivity).
  destruct (chain_get_stat 200 gu (fin_s 200 gu h)) as [[[[] [] [] []] s']| | |]; try discriminate. exists s'. reflexivity.
Qed.
Print Assumptions C40_above_2MB_refuted.
