(** Property C86: buffers that the user gives to a chain stay with the chain when it has a memory source too.
    [with_source g]: the chain [g] with a source; [mixed]: histories of such a chain on buffers of at most 1 MB, with a
    source that gives nothing; [all_free m o]: the free chunks; [occ m p]: place and size of the chunk of a block;
    [EPut b]: the range that starts at [b] is handed to the source. *)
From Verif Require Import Word Res Mem ChainModel ChainSpec ChainWalk ChainRun MixSpec MixProofs MixPut MixEx.
From Coq Require Import ZArith List Bool Lia.
Import ListNotations.
Open Scope Z_scope.

(** On small buffers every history with the source is one without it: all that is proved about chains on buffers
    of the user holds. *)
Theorem C86_small : forall g s o, mixed g s o -> csrc g = false ->
  reach g s o /\ forall b z, In (b, z) (segs o) -> z <= 1048576.
Proof. exact mixed_reach. Qed.
Print Assumptions C86_small.

(** Every call returns, with the result it has without a source, and hands nothing to the source. *)
Theorem C86_small_calls : forall g s o c fuel, mixed g s o -> csrc g = false -> valid g s o c -> small_call c -> fuel_ok g o c fuel ->
  step fuel (with_source g) c s = step fuel g c s /\ exists r s', step fuel g c s = Ok (r, s') /\ sevs s' = [].
Proof. exact mixed_quiet. Qed.
Print Assumptions C86_small_calls.

(** On larger buffers C86 is false.  Take any chain on buffers of the user and free a block below 1 MB; without a source a
    free chunk of [k * 2 MB - 48] bytes results.  With a source: if the chunk is at the start of a buffer, the buffer is
    handed to the source, be there other blocks in it or not; elsewhere the bytes before it, which belong to another block,
    are taken for the header of a range of the source. *)
Theorem C86_put_refuted : forall g s o p n d fuel s1 w t, reach g s o -> csrc g = false -> In (mkBlk p n d) (live o) ->
  held o < Z.of_nat fuel -> snd (occ (smem s) p) <= 1048560 ->
  step fuel g (OFree p) s = Ok (0, s1) -> In (w, t) (all_free (smem s1) o) -> w <= p < w + t -> t mod 2097152 = 2097152 - 48 ->
  exists b z, In (b, z) (segs o) /\ b <= p < b + z /\
    (w = b + 32 -> exists s', step fuel (with_source g) (OFree p) s = Ok (0, s') /\ sevs s' = [EPut b]) /\
    (w <> b + 32 -> step fuel (with_source g) (OFree p) s = UB).
Proof. exact src_free. Qed.
Print Assumptions C86_put_refuted.

(** And a block above 1 MB that comes from a buffer of the user is not freed: the call changes nothing. *)
Theorem C86_lost_refuted : forall g s o p n d fuel, reach g s o -> csrc g = false -> In (mkBlk p n d) (live o) ->
  1048560 < snd (occ (smem s) p) -> snd (occ (smem s) p) mod 2097152 <> 2097152 - 48 ->
  step fuel (with_source g) (OFree p) s = Ok (0, clear_ev s).
Proof. exact src_lost. Qed.
Print Assumptions C86_lost_refuted.

(** A history on buffers of 4096 bytes and 1 MB; then, in this order: a buffer of 2 MB is handed over when its only block is
    freed; one of 2 MB and 48 bytes with a block of 20 bytes in it; a block of 100 bytes behind another block; a block of
    1500000 bytes that is not freed. *)
Definition put_of (cs : list op) (p : Z) : list ev := sevs (after 200 (with_source gu) (OFree p) (fin_s 200 gu cs)).
Example C86_nontrivial :
  (mixed gu (mfin_s 200 gu hx) (mfin_o 200 gu hx) /\ live (mfin_o 200 gu hx) = [mkBlk 2097200 900000 0; mkBlk 1048768 200 64] /\
   valid gu (mfin_s 200 gu hx) (mfin_o 200 gu hx) (OAlloc 0 100 None)) /\
  (reach gu (fin_s 200 gu hw) (fin_o 200 gu hw) /\ In (mkBlk 4194352 100 0) (live (fin_o 200 gu hw)) /\
   step 200 gu (OFree 4194352) (fin_s 200 gu hw) = Ok (0, after 200 gu (OFree 4194352) (fin_s 200 gu hw)) /\
   In (4194336, 2097104) (all_free (smem (after 200 gu (OFree 4194352) (fin_s 200 gu hw))) (fin_o 200 gu hw)) /\
   snd (occ (smem (fin_s 200 gu hw)) 4194352) = 128 /\ 2097104 mod 2097152 = 2097152 - 48 /\ put_of hw 4194352 = [EPut 4194304]) /\
  (reach gu (fin_s 200 gu hf) (fin_o 200 gu hf) /\ live (fin_o 200 gu hf) = [mkBlk 6291456 20 0; mkBlk 4194352 100 0] /\
   segs (fin_o 200 gu hf) = [(4194304, 2097200)] /\ put_of hf 4194352 = [EPut 4194304]) /\
  (reach gu (fin_s 200 gu hm) (fin_o 200 gu hm) /\ live (fin_o 200 gu hm) = [mkBlk 4194400 100 0; mkBlk 4194352 20 0] /\
   In (4194384, 2097104) (all_free (smem (after 200 gu (OFree 4194400) (fin_s 200 gu hm))) (fin_o 200 gu hm)) /\
   step 200 (with_source gu) (OFree 4194400) (fin_s 200 gu hm) = UB) /\
  (reach gu (fin_s 200 gu hl) (fin_o 200 gu hl) /\ In (mkBlk 4194352 1500000 0) (live (fin_o 200 gu hl)) /\
   snd (occ (smem (fin_s 200 gu hl)) 4194352) = 1500016 /\ 1500016 mod 2097152 <> 2097152 - 48).
Proof.
  split; [|split; [|split; [|split]]].
  - split; [apply mfin_ok; vm_compute; reflexivity|]. split; [vm_compute; reflexivity|]. apply validb_ok. vm_compute. reflexivity.
  - split; [apply fin_reach; vm_compute; reflexivity|]. split; [vm_compute; auto|].
    split; [apply step_at; [vm_compute; reflexivity|lia]|]. split; [vm_compute; auto|]. split; [vm_compute; reflexivity|]. split; vm_compute; reflexivity.
  - split; [apply fin_reach; vm_compute; reflexivity|]. split; [vm_compute; reflexivity|]. split; vm_compute; reflexivity.
  - split; [apply fin_reach; vm_compute; reflexivity|]. split; [vm_compute; reflexivity|]. split; [vm_compute; auto|vm_compute; reflexivity].
  - split; [apply fin_reach; vm_compute; reflexivity|]. split; [vm_compute; auto|]. split; [vm_compute; reflexivity|discriminate].
Qed.
