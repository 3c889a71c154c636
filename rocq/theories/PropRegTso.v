(** C83: the registry of segments with the store buffers of x86. *)
From Verif Require Import Word Res RegionModel RegConcModel RegTsoModel RegTsoSpec RegTsoProofs RegTsoEnds RegTsoEx.
From Coq Require Import ZArith List Bool Lia Arith.
Import ListNotations.
Open Scope Z_scope.

(** The lookup of a free or realloc made by a thread that has a pointer to a block returns the mapped segment that holds the block and the chain this
    segment was registered for, whatever stores of whatever threads still wait in their buffers. *)
Theorem C83_lookup : forall s t p s' p' b c,
  xreach true true s -> seeks (x_at s t) = Some p -> x_go true t s = Ok s' -> x_at s' t = QFound p' b c ->
  p' = p /\ exists sz, In (b, sz, c) (x_map s') /\ b <= p < b + sz.
Proof. exact last_access. Qed.
Print Assumptions C83_lookup.

(** It needs no lock and no store of another thread: at most three accesses of its own end it. *)
Theorem C83_lookup_ends : forall s t p, xreach true true s -> seeks (x_at s t) = Some p ->
  exists n s' b sz c, (n <= 3)%nat /\ alone n t s = Ok s' /\ x_at s' t = QFound p b c /\ In (b, sz, c) (x_map s') /\ b <= p < b + sz.
Proof. exact lookup_ends. Qed.
Print Assumptions C83_lookup_ends.

(** No execution stops the program (2335) or reads memory that is not mapped. *)
Theorem C83_no_stop : forall s a, xreach true true s -> xvalid s a -> exists s', xstep true true a s = Ok s' /\ xreach true true s'.
Proof. exact no_stop. Qed.
Print Assumptions C83_no_stop.

(** From every state the threads have a way to let a registration or a return that has started end, without a new call. *)
Theorem C83_ends : forall s t on b, xreach true true s -> handles (x_at s t) = Some (on, b) ->
  exists s', goes_on s s' /\ xreach true true s' /\ x_at s' t = QDone /\ if on then In (t, b) (x_know s') else mapped s' b = false.
Proof. exact call_ends_reach. Qed.
Print Assumptions C83_ends.

(** A thread that has a pointer into a segment reads, for each address of the segment, the segment. *)
Theorem C83_known : forall s t b, xreach true true s -> In (t, b) (x_know s) ->
  exists sz c, In (b, sz, c) (x_map s) /\ m_hdr (view s t) b = (sz, c) /\
    forall a, b <= a < b + sz -> exists r, m_regs (view s t) (a / TB) = Some r /\ m_tabs (view s t) r (slot a) = b.
Proof. exact known_mapped. Qed.
Print Assumptions C83_known.

(** The header of a region in the table is never replaced, and no two threads see two headers for a region or the same one for two regions. *)
Theorem C83_region_kept : forall s a s' t id r,
  xreach true true s -> xvalid s a -> xstep true true a s = Ok s' -> m_regs (x_m s) id = Some r -> m_regs (view s' t) id = Some r.
Proof. exact region_kept. Qed.
Print Assumptions C83_region_kept.

Theorem C83_regions_agree : forall s t u id id' r r',
  xreach true true s -> m_regs (view s t) id = Some r -> m_regs (view s u) id' = Some r' -> (id = id' <-> r = r').
Proof. exact regions_agree. Qed.
Print Assumptions C83_regions_agree.

(** No thread reads a stale entry: for addresses that no mapped segment holds, such as those of a segment given back, every thread reads 0. *)
Theorem C83_no_stale : forall s u b sz a r,
  xreach true true s -> 4194304 <= b -> b + sz <= 2 ^ 48 -> b mod 2097152 = 0 -> sz mod 2097152 = 0 ->
  (forall y z c, In (y, z, c) (x_map s) -> b + sz <= y \/ y + z <= b) ->
  b <= a < b + sz -> m_regs (view s u) (a / TB) = Some r -> m_tabs (view s u) r (slot a) = 0.
Proof. exact unmapped_zero. Qed.
Print Assumptions C83_no_stale.

(** The theorems apply to a state where thread 1 looks for a block of chain 7 while stores of thread 0 about another segment wait. *)
Example C83_case : xreach true true s_case /\ seeks (x_at s_case 1%nat) = Some (11 * MB) /\ x_buf s_case 0%nat = [WHdr (16 * MB) (2 * MB) 9; WEnt 0 8 (16 * MB)] /\
  In (1%nat, 8 * MB) (x_know s_case) /\ m_regs (view s_case 1) 0 = Some 0%nat /\ xvalid s_case (SDrop 2 (8 * MB)) /\
  exists s', alone 2 1 s_case = Ok s' /\ x_at s' 1%nat = QFound (11 * MB) (8 * MB) 7.
Proof.
  assert (P : play true true T3 l_case x0 = Some s_case) by (vm_compute; reflexivity).
  split; [exact (proj1 (play_0 _ _ _ _ _ P))|]. split; [vm_compute; reflexivity|]. split; [vm_compute; reflexivity|]. split; [vm_compute; left; reflexivity|].
  split; [vm_compute; reflexivity|]. split; [vm_compute; exact Logic.I|].
  assert (Q : match alone 2 1 s_case with Ok s' => x_at s' 1%nat = QFound (11 * MB) (8 * MB) 7 | _ => False end) by (vm_compute; reflexivity).
  destruct (alone 2 1 s_case) as [s'| | |]; try contradiction. exists s'. split; [reflexivity|exact Q].
Qed.
(** One where a segment has been given back, and one where two threads meet at the lock of a region that has no header. *)
Example C83_case_back : xreach true true s_back /\ x_map s_back = [] /\ m_regs (view s_back 1) 0 = Some 0%nat /\ m_tabs (view s_back 1) 0 (slot (8 * MB)) = 0.
Proof.
  assert (P : play true true T3 l_back x0 = Some s_back) by (vm_compute; reflexivity).
  split; [exact (proj1 (play_0 _ _ _ _ _ P))|]. repeat split; vm_compute; reflexivity.
Qed.
Example C83_case_make : xreach true true s_make /\ x_at s_make 0%nat = QMap (WSet (8 * MB) (8 * MB)) /\ x_at s_make 1%nat = QLock (WSet (16 * MB) (16 * MB)) /\
  handles (x_at s_make 1%nat) = Some (true, 16 * MB).
Proof.
  assert (P : play true true T3 l_make x0 = Some s_make) by (vm_compute; reflexivity).
  split; [exact (proj1 (play_0 _ _ _ _ _ P))|]. split; [vm_compute; reflexivity|]. split; vm_compute; reflexivity.
Qed.

(** On a machine that lets stores overtake each other: the pointer to a block comes before the entries of its segment, the lookup answers NULL and the
    block is not freed (the code has no barrier between the entries and the return of the block). *)
Theorem C83_overtake_refuted : exists s t p b sz c s',
  xreach false true s /\ In (t, b) (x_know s) /\ In (b, sz, c) (x_map s) /\ b <= p < b + sz /\ seeks (x_at s t) = Some p /\ x_go true t s = Ok s' /\ x_at s' t = QFound p 0 0.
Proof.
  assert (P : play false true T3 l_over x0 = Some s_over) by (vm_compute; reflexivity).
  assert (Q : match x_go true 1 s_over with Ok s' => x_at s' 1%nat = QFound (11 * MB) 0 0 | _ => False end) by (vm_compute; reflexivity).
  destruct (x_go true 1 s_over) as [s'| | |] eqn:G; try contradiction.
  exists s_over, 1%nat, (11 * MB), (8 * MB), (4 * MB), 7, s'. split; [exact (proj1 (play_0 _ _ _ _ _ P))|]. split; [vm_compute; left; reflexivity|].
  split; [vm_compute; left; reflexivity|]. split; [vm_compute; split; [discriminate|reflexivity]|]. split; [vm_compute; reflexivity|]. split; [exact G|exact Q].
Qed.
Print Assumptions C83_overtake_refuted.

(** On the same machine two threads see two headers for one region: the store that gives the lock back comes before that of the header. *)
Theorem C83_overtake_region_refuted : exists s t u id r r', xreach false true s /\ m_regs (view s t) id = Some r /\ m_regs (view s u) id = Some r' /\ r <> r'.
Proof.
  assert (P : play false true T3 l_two x0 = Some s_twice) by (vm_compute; reflexivity).
  exists s_twice, 0%nat, 1%nat, 0, 0%nat, 1%nat. split; [exact (proj1 (play_0 _ _ _ _ _ P))|]. split; [vm_compute; reflexivity|]. split; [vm_compute; reflexivity|discriminate].
Qed.
Print Assumptions C83_overtake_region_refuted.

(** If giving a segment back did not wait for the buffer (a source without lock or system call), the next registration of the addresses would stop the
    program (2335). *)
Theorem C83_no_fence_refuted : exists s t, xreach true false s /\ xvalid s (SGo t) /\ xstep true false (SGo t) s = Abort.
Proof.
  assert (P : play true false T3 l_late x0 = Some s_late) by (vm_compute; reflexivity).
  exists s_late, 1%nat. split; [exact (proj1 (play_0 _ _ _ _ _ P))|]. split; [exact Logic.I|]. vm_compute. reflexivity.
Qed.
Print Assumptions C83_no_fence_refuted.
