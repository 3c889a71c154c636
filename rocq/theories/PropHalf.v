(** Property C14, the sizes from half the address space to the wrap zone: [asked d n] is the size with the room
    for the alignment, [all_free m o] the free chunks, [held o] the bytes of the segments. *)
From Verif Require Import Word Res Mem ChainModel ChainSpec ChainWalk ChainCap ChainHalf ChainRun.
From Coq Require Import ZArith List Bool Lia.
Import ListNotations.
Open Scope Z_scope.

(** On a user chain the request returns NULL and changes nothing, unless the size reaches 2^63 and a free chunk of
    exactly 2 MB is there. *)
Theorem C14_half_fails : forall g s o d n gr fuel, reach g s o -> csrc g = false -> 0 < n -> (d = 0 \/ exists k, 0 <= k /\ d = 2 ^ k) ->
  2 ^ 63 - 64 <= asked d n < 2 ^ 64 - 16 -> (2 ^ 63 - 16 <= asked d n -> forall w, ~ In (w, 2097152) (all_free (smem s) o)) ->
  held o < Z.of_nat fuel -> step fuel g (OAlloc d n gr) s = Ok (0, clear_ev s).
Proof. exact half_null. Qed.
Print Assumptions C14_half_fails.

(** With a memory source that refuses, in any state. *)
Theorem C14_half_refused : forall g s d n fuel, csrc g = true -> 0 < n -> (d = 0 \/ exists k, 0 <= k /\ d = 2 ^ k) ->
  2 ^ 63 - 64 <= asked d n < 2 ^ 64 - 16 -> step fuel g (OAlloc d n None) s = Ok (0, clear_ev s).
Proof. exact half_refused. Qed.
Print Assumptions C14_half_refused.

(** In the remaining case C14 is false: the size is compared as a signed number, the chunk of 2 MB is taken for
    large enough, and the program never gets its answer (undefined behaviour or failed assertion). *)
Theorem C14_half_refuted : forall g s o d n gr fuel w, reach g s o -> csrc g = false -> 0 < n -> (d = 0 \/ exists k, 0 <= k /\ d = 2 ^ k) ->
  2 ^ 63 - 16 <= asked d n < 2 ^ 64 - 16 -> In (w, 2097152) (all_free (smem s) o) ->
  held o < Z.of_nat fuel -> step fuel g (OAlloc d n gr) s = UB \/ step fuel g (OAlloc d n gr) s = Abort.
Proof. exact half_killed. Qed.
Print Assumptions C14_half_refuted.

(** The chain of C14_nontrivial; a chain just given a buffer of 2 MB and 48 bytes, where a size of 2^63 writes
    outside its memory, and one close to 2^64 writes inside before the assertion fails. *)
Definition h14 : list op := [ORefill (2 * MB2) (MB2 + 48)].
Example C14_half_nontrivial :
  (reach gu SU OU /\ csrc gu = false /\ asked 4096 (2 ^ 63) = 2 ^ 63 + 4096 /\ all_free (smem SU) OU <> [] /\
   (forall w, ~ In (w, 2097152) (all_free (smem SU) OU)) /\ held OU = 4096) /\
  (reach gu (fin_s 200 gu h14) (fin_o 200 gu h14) /\ all_free (smem (fin_s 200 gu h14)) (fin_o 200 gu h14) = [(4194336, 2097152)] /\
   held (fin_o 200 gu h14) = 2097200 /\ step 200 gu (OAlloc 0 (2 ^ 63) None) (fin_s 200 gu h14) = UB /\
   valid gu (fin_s 200 gu h14) (fin_o 200 gu h14) (OAlloc 0 100 None)) /\
  (reach gu (fin_s 200 gu (h14 ++ [ORefill (2 * MB2 - 8192) 8192])) (fin_o 200 gu (h14 ++ [ORefill (2 * MB2 - 8192) 8192])) /\
   step 200 gu (OAlloc 0 (2 ^ 64 - 4096) None) (fin_s 200 gu (h14 ++ [ORefill (2 * MB2 - 8192) 8192])) = Abort).
Proof.
  split; [|split].
  - split; [exact reach_U|]. split; [reflexivity|]. split; [reflexivity|]. split; [vm_compute; discriminate|]. split; [|vm_compute; reflexivity].
    intros w H. assert (E : existsb (fun x => snd x =? 2097152) (all_free (smem SU) OU) = false) by (vm_compute; reflexivity).
    assert (T : existsb (fun x => snd x =? 2097152) (all_free (smem SU) OU) = true) by (apply existsb_exists; exists (w, 2097152); split; [exact H|reflexivity]). rewrite E in T. discriminate T.
  - assert (R : reach gu (fin_s 200 gu h14) (fin_o 200 gu h14)) by (apply fin_reach; vm_compute; reflexivity).
    split; [exact R|]. assert (EB : blocks (fin_o 200 gu h14) = []) by (vm_compute; reflexivity).
    assert (ES : segs (fin_o 200 gu h14) = [(4194304, 2097200)]) by (vm_compute; reflexivity).
    split; [|split; [unfold held; rewrite ES; reflexivity|]].
    { unfold all_free, free_in. rewrite ES. cbn [flat_map]. destruct (empty_restores _ _ _ R eq_refl eq_refl EB) as (K & _).
      rewrite (K 4194304 2097200) by (rewrite ES; left; reflexivity). reflexivity. }
    split; [vm_compute; reflexivity|apply validb_ok; vm_compute; reflexivity].
  - split; [apply fin_reach; vm_compute; reflexivity|vm_compute; reflexivity].
Qed.
