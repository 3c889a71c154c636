(** Property C88: handlers of signals that call the library, and its locks.  [interrupt s t r]: thread [t], in state [s], runs a handler
    that does the call [r], then goes on with what it had left; [sgoes_star call P]: the threads go on, start calls of [call], and run such
    handlers when [P] holds, also inside handlers; [in_order s t r]: [r] only takes locks that come after those that [t] holds;
    [anytime]: no condition; [never_back s t rest]: [t] never comes back to [rest]; [never_free s l]: [l] is never free. *)
From Verif Require Import OrderSpec OrderModel OrderProofs ForkLock SignalSpec SignalLock.
From Coq Require Import List Bool Arith Lia.
Import ListNotations.

Definition calm (w : world) : Prop := map_fails w = false /\ libs_malloc w = false /\ flag_moves w = false.

(** If each handler only takes locks that come after those of the interrupted thread, then while a thread is in a call, some thread can go on. *)
Theorem C88_in_order : forall w egg, calm w -> egg_ok egg -> forall s t, sgoes_star lk lk_eqb (good w egg) in_order o0 s -> todo s t <> [] ->
  exists s', moves lk lk_eqb s s'.
Proof. exact (fun w egg K E s t => order_moves w egg (proj1 K) (proj2 (proj2 K)) (proj1 (proj2 K)) E s t). Qed.
Print Assumptions C88_in_order.

(** And all calls and all handlers can end, with all locks free. *)
Theorem C88_in_order_end : forall w egg, calm w -> egg_ok egg -> forall s, sgoes_star lk lk_eqb (good w egg) in_order o0 s ->
  exists s', moves_star lk lk_eqb s s' /\ all_out lk s'.
Proof. exact (fun w egg K E s => order_end w egg (proj1 K) (proj2 (proj2 K)) (proj1 (proj2 K)) E s). Qed.
Print Assumptions C88_in_order_end.

(** A handler that needs a lock of its own thread never returns, and nobody gets this lock any more. *)
Theorem C88_own_lock_refuted : forall w egg s t l r, sgoes_star lk lk_eqb (any w egg) (anytime lk) o0 s -> owner s l = Some t ->
  any w egg r -> In (Take l) r ->
  never_back lk lk_eqb (any w egg) (interrupt lk s t r) t (todo s t) /\ never_free lk lk_eqb (any w egg) (interrupt lk s t r) l.
Proof. exact self_never. Qed.
Print Assumptions C88_own_lock_refuted.

(** So the calls of the other threads that need it do not end either. *)
Theorem C88_others_refuted : forall w egg l s u r s', never_free lk lk_eqb (any w egg) s l ->
  sgoes_star lk lk_eqb (any w egg) (anytime lk) s s' -> todo s' u = [] -> In (Take l) r -> any w egg r ->
  never_back lk lk_eqb (any w egg) (mkO (owner s') (tdo lk s' u r)) u [].
Proof. exact free_waits. Qed.
Print Assumptions C88_others_refuted.

(** It happens with malloc interrupted by malloc, for each of the locks of malloc: egg chain, light source of the chain, regions. *)
Theorem C88_malloc_refuted : forall w egg c l s t, egg_ok egg -> flag_moves w = false -> chn_ok c -> needs c l ->
  sgoes_star lk lk_eqb (any w egg) (anytime lk) o0 s -> todo s t = [] -> owner s l = None ->
  path (malloc w egg c) [Take l; Give l] /\
  exists s', goes_star lk lk_eqb (good w egg) s s' /\ todo s' t = [Give l] /\
    never_back lk lk_eqb (any w egg) (interrupt lk s' t [Take l; Give l]) t [Give l] /\
    never_free lk lk_eqb (any w egg) (interrupt lk s' t [Take l; Give l]) l.
Proof. exact (fun w egg c l s t E F C N R T O => conj (malloc_needs w egg c l E F N) (handler_stuck w egg c l s t E F C N R T O)). Qed.
Print Assumptions C88_malloc_refuted.

(** A lock that comes before is enough, even if the thread does not hold it: thread [t], in malloc, holds the lock of the regions, thread [u]
    allocates in a shared chain and waits for [t]; a handler of [t] allocates in the shared chain.  Neither ends. *)
Theorem C88_before_refuted : forall w egg c z s t u, flag_moves w = false -> chn_ok c -> safe c = true -> listed c = true -> source c = Light z ->
  sgoes_star lk lk_eqb (any w egg) (anytime lk) o0 s -> t <> u -> todo s t = [] -> todo s u = [] ->
  owner s LReg = None -> owner s (LChain (cid c)) = None ->
  let m := LChain (cid c) in
  exists s', goes_star lk lk_eqb (good w egg) s s' /\ todo s' t = [Give LReg] /\ todo s' u = [Take LReg; Give LReg; Give m] /\
    never_back lk lk_eqb (any w egg) (interrupt lk s' t [Take m; Give m]) t [Give LReg] /\
    never_back lk lk_eqb (any w egg) (interrupt lk s' t [Take m; Give m]) u [Give LReg; Give m].
Proof. exact handler_cross. Qed.
Print Assumptions C88_before_refuted.

(** Thread 0 holds the lock of the shared chain 3; a handler does a malloc that needs the lock of source 4, and takes it; a second handler, in
    the first, needs the regions, and takes their lock: three locks are held, all in order.  And a handler that takes no lock (a free that
    only queues the block) is in order in any state. *)
Example C88_nontrivial : let w := mkW false false false in let egg := mkC 0 true true (Light 1) false in
  let c := mkC 3 true true (Light 4) false in
  calm w /\ egg_ok egg /\ chn_ok c /\ needs c (LSrc 4) /\ needs c LReg /\
  (exists s, sgoes_star lk lk_eqb (good w egg) in_order o0 s /\ todo s 0 = [Give LReg; Give (LSrc 4); Give (LChain 3)] /\
     owner s (LChain 3) = Some 0 /\ owner s (LSrc 4) = Some 0 /\ owner s LReg = Some 0 /\
     ~ in_order s 0 [Take (LSrc 4); Give (LSrc 4)]) /\
  (path (free w egg c c) [] /\ good w egg [] /\ forall s t, in_order s t []).
Proof.
  cbv zeta. set (w := mkW false false false). set (egg := mkC 0 true true (Light 1) false). set (c := mkC 3 true true (Light 4) false).
  assert (EO : egg_ok egg) by (repeat split; right; eexists; reflexivity).
  assert (N4 : needs c (LSrc 4)) by (right; exists 4; split; [reflexivity|left; reflexivity]).
  assert (NR : needs c LReg) by (right; exists 4; split; [reflexivity|right; split; reflexivity]).
  assert (CK : chn_ok c) by (unfold chn_ok; cbn; lia).
  assert (G4 : good w egg [Take (LSrc 4); Give (LSrc 4)])
    by (exists (malloc w egg c); split; [apply gc_malloc; left; exact CK|exact (malloc_needs w egg c _ EO eq_refl N4)]).
  assert (GR : good w egg [Take LReg; Give LReg])
    by (exists (malloc w egg c); split; [apply gc_malloc; left; exact CK|exact (malloc_needs w egg c _ EO eq_refl NR)]).
  assert (GC : good w egg [Take (LChain 3); Give (LChain 3)])
    by (exists (chain_alloc w c); split; [apply gc_alloc; left; exact CK|exact (shared_path w c [] eq_refl eq_refl (p_left _ _ _ p_skip))]).
  split; [repeat split|]. split; [exact EO|]. split; [exact CK|]. split; [exact N4|]. split; [exact NR|]. split.
  - eexists. split; [|split; [|split; [|split; [|split]]]].
    + eapply ss_step; [apply sg_go, (g_call lk lk_eqb _ o0 0 _ eq_refl GC)|].
      eapply ss_step; [apply sg_go, g_move; eapply (m_take lk lk_eqb _ 0); reflexivity|].
      eapply ss_step; [apply (sg_signal lk lk_eqb _ _ _ 0 _ G4)|].
      { intros l k O [I|[I|[]]]; [|discriminate I]. injection I as <-. destruct l as [|[|n]|z| | |]; cbn in *; try discriminate; lia. }
      eapply ss_step; [apply sg_go, g_move; eapply (m_take lk lk_eqb _ 0); reflexivity|].
      eapply ss_step; [apply (sg_signal lk lk_eqb _ _ _ 0 _ GR)|].
      { intros l k O [I|[I|[]]]; [|discriminate I]. injection I as <-. destruct l as [|[|n]|z| | |]; cbn in *; try discriminate; lia. }
      eapply ss_step; [apply sg_go, g_move; eapply (m_take lk lk_eqb _ 0); reflexivity|]. apply ss_refl.
    + reflexivity.
    + reflexivity.
    + reflexivity.
    + reflexivity.
    + intros F. specialize (F LReg (LSrc 4) eq_refl (or_introl eq_refl)). cbn in F. lia.
  - assert (P : path (free w egg c c) []).
    { unfold free. change (@nil (op lk)) with ([] ++ [] ++ [] : list (op lk)). apply p_seq; [apply p_left; constructor|].
      apply p_seq; [apply p_none|apply p_left; constructor]. }
    split; [exact P|]. split; [|intros s t l k _ []]. exists (free w egg c c). split; [apply gc_pfree; left; exact CK|exact P].
Qed.
