(** C73: the hooks (debugger and profiler events) of a chain. *)
From Verif Require Import Word Res Mem SizeClassModel ChainModel ChainSpec ChainRun HookModel HookSpec HookErase HookAlloc HookLog HookRun.
From Coq Require Import ZArith List Bool Lia Permutation.
Import ListNotations.
Open Scope Z_scope.

(** A call with hooks installed has the same result as without, leaves the same memory and makes the same exchanges with the
    memory source, except for the two kinds of calls named by [broken]. *)
Theorem C73_transparent : forall g k s o c fuel, reach g s o -> valid g s o c -> fuel_ok g o c fuel -> ~ broken k g o c ->
  exists r s' t l, step fuel g c s = Ok (r, s') /\ step_h k fuel g c s = Ok (r, t, l) /\ same t s'.
Proof. exact hooks_transparent. Qed.
Print Assumptions C73_transparent.

(** The blocks in use are the ones announced by an allocation and not yet by a free. *)
Theorem C73_blocks : forall g k s o L, all_on k -> hreach g k s o L -> Permutation (told_blocks L) (map bp (blocks o)).
Proof. exact hooks_blocks. Qed.
Print Assumptions C73_blocks.

(** The segments of a chain with a memory source are the ones announced as added and not yet as removed. *)
Theorem C73_segments : forall g k s o L, k_add k = true -> k_drop k = true -> csrc g = true -> hreach g k s o L ->
  told_segs L = map fst (segs o).
Proof. exact hooks_segments. Qed.
Print Assumptions C73_segments.

(** The one size announced by a free or by a plain allocation is the memory that the block occupies. *)
Theorem C73_free_size : forall g k s o p n d fuel r t l, all_on k -> reach g s o -> In (mkBlk p n d) (live o) -> fuel_ok g o (OFree p) fuel ->
  step_h k fuel g (OFree p) s = Ok (r, t, l) ->
  size_told l p (snd (occ (smem s) p)) /\ forall q z, size_told l q z -> q = p /\ z = snd (occ (smem s) p).
Proof. exact free_size. Qed.
Print Assumptions C73_free_size.
Theorem C73_alloc_size : forall g k s o d n gr fuel r t l, all_on k -> reach g s o -> valid g s o (OAlloc d n gr) ->
  fuel_ok g o (OAlloc d n gr) fuel -> d <= 1 -> step_h k fuel g (OAlloc d n gr) s = Ok (r, t, l) -> r <> 0 ->
  size_told l r (snd (occ (smem t) r)) /\ forall q z, size_told l q z -> q = r /\ z = snd (occ (smem t) r).
Proof. exact alloc_size. Qed.
Print Assumptions C73_alloc_size.

(** The size announced as requested is the size asked, when no alignment is asked, ... *)
Theorem C73_request : forall g k s o d n gr fuel r t l, all_on k -> reach g s o -> valid g s o (OAlloc d n gr) ->
  fuel_ok g o (OAlloc d n gr) fuel -> step_h k fuel g (OAlloc d n gr) s = Ok (r, t, l) -> r <> 0 ->
  d = 0 \/ (if csrc g && (1048576 - 16 <? asked d n) then d <> 1 else d = 1) -> forall z, req_told l z <-> z = n.
Proof. exact right_request. Qed.
Print Assumptions C73_request.
(** ... but one byte less for huge requests with an alignment of 1, and with the alignment added for other aligned requests. *)
Theorem C73_request_refuted : forall g k s o d n gr fuel r t l, all_on k -> reach g s o -> valid g s o (OAlloc d n gr) ->
  fuel_ok g o (OAlloc d n gr) fuel -> step_h k fuel g (OAlloc d n gr) s = Ok (r, t, l) -> r <> 0 -> d <> 0 ->
  (if csrc g && (1048576 - 16 <? asked d n) then d = 1 else 1 < d) ->
  forall z, req_told l z <-> z = (if csrc g && (1048576 - 16 <? asked d n) then n - 1 else n + d).
Proof. exact wrong_request. Qed.
Print Assumptions C73_request_refuted.

(** A huge request refused by the source: null without the hook of huge allocations, an access to the header of the null
    block with it; from every reachable state. *)
Theorem C73_refused_huge_refuted : forall g s o d n k fuel, reach g s o -> valid g s o (OAlloc d n None) -> csrc g = true -> huge d n -> n <> 0 ->
  k_halloc k = true -> step_h k fuel g (OAlloc d n None) s = UB /\ step fuel g (OAlloc d n None) s = Ok (0, clear_ev s).
Proof. exact refused_huge. Qed.
Print Assumptions C73_refused_huge_refuted.

(** Collecting remote frees with the hook of flushes never returns; whatever the fuel. *)
Theorem C73_flush_refuted : forall g s o k fuel x, reach g s o -> k_flush k = true -> pend o <> [] -> step_h k fuel g OPurge s <> Ok x.
Proof. exact flush_stuck. Qed.
Print Assumptions C73_flush_refuted.

(** ** The hypotheses are met *)
Example C73_run_user : hreach gu kall (fst (fst (hfin kall HFU gu HU_ops))) (snd (fst (hfin kall HFU gu HU_ops))) (snd (hfin kall HFU gu HU_ops)) /\
  all_on kall /\ told_blocks (snd (hfin kall HFU gu HU_ops)) = [4194672; 4194496] /\ length (snd (hfin kall HFU gu HU_ops)) = 7%nat.
Proof. split; [apply hfin_reach; vm_compute; reflexivity|]. vm_compute. tauto. Qed.
Example C73_run_source : hreach gs kall (fst (fst (hfin kall HFS gs HS_ops))) (snd (fst (hfin kall HFS gs HS_ops))) (snd (hfin kall HFS gs HS_ops)) /\
  csrc gs = true /\ told_segs (snd (hfin kall HFS gs HS_ops)) = [4194304] /\ length (snd (hfin kall HFS gs HS_ops)) = 6%nat.
Proof. split; [apply hfin_reach; vm_compute; reflexivity|]. vm_compute. tauto. Qed.
(** A remote free is pending: collecting it is broken by the hook of flushes only. *)
Example C73_pending : let o := snd (fst (hfin kall HFU gu (removelast HU_ops))) in pend o <> [] /\ ~ broken kall gu o OPurge.
Proof. split; [vm_compute; discriminate|]. intros (K & _). vm_compute in K. discriminate. Qed.
Example C73_huge_valid : huge 0 3000000 /\ valid gs (fst (fst (hfin kall HFS gs HS_ops))) (snd (fst (hfin kall HFS gs HS_ops))) (OAlloc 0 3000000 None).
Proof. split; [vm_compute; reflexivity|]. apply validb_ok. vm_compute. reflexivity. Qed.
(** An aligned request of 100 bytes, announced as 164. *)
Example C73_aligned : exists s o L r t l, hreach gu kall s o L /\ valid gu s o (OAlloc 64 100 None) /\ fuel_ok gu o (OAlloc 64 100 None) HFU /\
  step_h kall HFU gu (OAlloc 64 100 None) s = Ok (r, t, l) /\ r <> 0 /\ req_told l 164.
Proof.
  pose (x := hfin kall HFU gu (firstn 2 HU_ops)). assert (R : hreach gu kall (fst (fst x)) (snd (fst x)) (snd x)) by (apply hfin_reach; vm_compute; reflexivity).
  exists (fst (fst x)), (snd (fst x)), (snd x). destruct (step_h kall HFU gu (OAlloc 64 100 None) (fst (fst x))) as [[[r t] l]| | |] eqn:E;
    [|vm_compute in E; discriminate..].
  exists r, t, l. split; [exact R|]. split; [apply validb_ok; vm_compute; reflexivity|]. split; [vm_compute; reflexivity|]. split; [reflexivity|].
  pose (f := fun y : res (Z * st * list hev) => match y with Ok (r, _, l) => (r, l) | _ => (0, []) end).
  assert (K : (r, l) = f (step_h kall HFU gu (OAlloc 64 100 None) (fst (fst x)))) by (rewrite E; reflexivity). clear E. vm_compute in K. injection K as -> ->.
  split; [lia|]. eexists. split; [left; reflexivity|reflexivity].
Qed.
