(** Property C75: the locks of the library.  [good w egg] are the lists of lock operations of the allocation, free, realloc,
    purge, destruction, migration and region functions; [any w egg] adds the statistics, the cleanup of a light source
    and the destruction of the egg chain.  [moves] lets a thread go on in its call, [goes] may also start calls. *)
From Verif Require Import OrderSpec OrderModel OrderProofs.
From Coq Require Import List Bool Arith Lia.
Import ListNotations.

(** Nothing goes wrong around the library: no mapping of the default source fails, hwloc does not allocate, the
    flag of a chain does not change during a call. *)
Definition calm (w : world) : Prop := map_fails w = false /\ libs_malloc w = false /\ flag_moves w = false.
Definition run (w : world) (egg : chn) (s : ost lk) : Prop := goes_star lk lk_eqb (good w egg) o0 s.
Definition run_any (w : world) (egg : chn) (s : ost lk) : Prop := goes_star lk lk_eqb (any w egg) o0 s.
Definition Lost (w : world) (egg : chn) := lost lk lk_eqb (any w egg).
Definition Stuck (w : world) (egg : chn) := stuck lk lk_eqb (any w egg).

(** Any number of threads, any calls: while a thread is in a call, some thread in a call can go on. *)
Theorem C75_no_deadlock : forall w egg, calm w -> egg_ok egg -> forall s t, run w egg s -> todo s t <> [] ->
  exists s', moves lk lk_eqb s s'.
Proof. exact (fun w egg K E s t => no_deadlock w egg (proj1 K) (proj2 (proj2 K)) (proj1 (proj2 K)) E s t). Qed.
Print Assumptions C75_no_deadlock.

(** And all calls can end, with all locks free. *)
Theorem C75_calls_end : forall w egg, calm w -> egg_ok egg -> forall s, run w egg s ->
  exists s', moves_star lk lk_eqb s s' /\ all_out lk s'.
Proof. exact (fun w egg K E s => calls_end w egg (proj1 K) (proj2 (proj2 K)) (proj1 (proj2 K)) E s). Qed.
Print Assumptions C75_calls_end.

(** A lock that is taken will be given back by the call of the thread that took it. *)
Theorem C75_given_back : forall w egg, calm w -> egg_ok egg -> forall s t l, run w egg s -> owner s l = Some t ->
  In (Give l) (todo s t).
Proof. exact (fun w egg K E s t l => owner_gives w egg (proj1 K) (proj2 (proj2 K)) (proj1 (proj2 K)) E s t l). Qed.
Print Assumptions C75_given_back.

(** Only the thread that took a lock gives it back. *)
Theorem C75_own : forall w egg, calm w -> egg_ok egg -> forall s t l r, run w egg s -> todo s t = Give l :: r -> owner s l = Some t.
Proof. exact (fun w egg K E s t l r => giver_owns w egg (proj1 K) (proj2 (proj2 K)) (proj1 (proj2 K)) E s t l r). Qed.
Print Assumptions C75_own.

(** A thread never waits for a lock it took itself. *)
Theorem C75_no_self : forall w egg, calm w -> egg_ok egg -> forall s t l r, run w egg s -> todo s t = Take l :: r -> owner s l <> Some t.
Proof. exact (fun w egg K E s t l r => no_self w egg (proj1 K) (proj2 (proj2 K)) (proj1 (proj2 K)) E s t l r). Qed.
Print Assumptions C75_no_self.

(** In any case (even when things go wrong): who needs a lost lock never ends. *)
Theorem C75_lost_stuck : forall w egg s l t r, Lost w egg s l -> todo s t = Take l :: r -> Stuck w egg s t.
Proof. exact lost_stuck. Qed.
Print Assumptions C75_lost_stuck.

(** The mapping of a default source fails: its lock is lost. *)
Theorem C75_map_refuted : forall w egg c z, map_fails w = true -> chn_ok c \/ c = egg -> source c = Dflt z ->
  forall s t, run_any w egg s -> todo s t = [] -> owner s (LSrc z) = None ->
  exists s', goes_star lk lk_eqb (any w egg) s s' /\ todo s' t = [] /\ Lost w egg s' (LSrc z).
Proof. exact (fun w egg c z F C S s t R T O => lone_take w egg s t (LSrc z) R T O (map_call w egg c z F C S)). Qed.
Print Assumptions C75_map_refuted.

(** The cleanup of a light source: its lock is lost. *)
Theorem C75_cleanup_refuted : forall w egg z s t, run_any w egg s -> todo s t = [] -> owner s (LSrc z) = None ->
  exists s', goes_star lk lk_eqb (any w egg) s s' /\ todo s' t = [] /\ Lost w egg s' (LSrc z).
Proof. exact (fun w egg z s t R T O => lone_take w egg s t (LSrc z) R T O (clean_call w egg z)). Qed.
Print Assumptions C75_cleanup_refuted.

(** The flag of a thread-safe chain is cleared during an allocation: the lock of the chain is lost. *)
Theorem C75_flag_refuted : forall w egg c, flag_moves w = true -> chn_ok c \/ c = egg -> safe c = true ->
  forall s t, run_any w egg s -> todo s t = [] -> owner s (LChain (cid c)) = None ->
  exists s', goes_star lk lk_eqb (any w egg) s s' /\ todo s' t = [] /\ Lost w egg s' (LChain (cid c)).
Proof. exact (fun w egg c F C S s t R T O => lone_take w egg s t (LChain (cid c)) R T O (flag_call w egg c F C S)). Qed.
Print Assumptions C75_flag_refuted.

(** The statistics of a thread-safe chain never end, and the lock of the chain is lost. *)
Theorem C75_stat_refuted : forall w egg c, safe c = true ->
  forall s t, run_any w egg s -> todo s t = [] -> owner s (LChain (cid c)) = None ->
  exists s', goes_star lk lk_eqb (any w egg) s s' /\ Stuck w egg s' t /\ Lost w egg s' (LChain (cid c)).
Proof. exact (fun w egg c S s t R T O => double_take w egg s t (LChain (cid c)) [] R T O (stat_call w egg c S)). Qed.
Print Assumptions C75_stat_refuted.

(** The NUMA statistics of a chain allocate (calloc) under the lock of the regions: if the allocation needs a new region, they
    never end, and the table of regions is locked for ever. *)
Theorem C75_numa_stat_refuted : forall w egg c z, source c = Light z -> listed c = true ->
  forall s t, run_any w egg s -> todo s t = [] -> owner s LReg = None ->
  exists s', goes_star lk lk_eqb (any w egg) s s' /\ Stuck w egg s' t /\ Lost w egg s' LReg.
Proof. exact (fun w egg c z S L s t R T O => double_take w egg s t LReg _ R T O (nstat_call w egg c z S L)). Qed.
Print Assumptions C75_numa_stat_refuted.

(** When hwloc allocates, the migration of a chain can block itself in the same way. *)
Theorem C75_migrate_refuted : forall w egg c z, libs_malloc w = true -> chn_ok c \/ c = egg -> source c = Light z -> listed c = true ->
  forall s t, run_any w egg s -> todo s t = [] -> owner s LReg = None ->
  exists s', goes_star lk lk_eqb (any w egg) s s' /\ Stuck w egg s' t /\ Lost w egg s' LReg.
Proof. exact (fun w egg c z M C S L s t R T O => double_take w egg s t LReg _ R T O (migrate_call w egg c z M C S L)). Qed.
Print Assumptions C75_migrate_refuted.

(** And the migration of a light source, when the chain of the thread has this source. *)
Theorem C75_light_migrate_refuted : forall w egg c z, libs_malloc w = true -> chn_ok c \/ c = egg -> source c = Light z ->
  forall s t, run_any w egg s -> todo s t = [] -> owner s (LSrc z) = None ->
  exists s', goes_star lk lk_eqb (any w egg) s s' /\ Stuck w egg s' t /\ Lost w egg s' (LSrc z).
Proof. exact (fun w egg c z M C S s t R T O => double_take w egg s t (LSrc z) _ R T O (lmigrate_call w egg c z M C S)). Qed.
Print Assumptions C75_light_migrate_refuted.

(** A thread whose chain is the egg chain marks it for destruction and purges it: it waits for itself. *)
Theorem C75_egg_refuted : forall w egg, egg_ok egg -> forall s t, run_any w egg s -> todo s t = [] -> owner s (LChain 0) = None ->
  exists s', goes_star lk lk_eqb (any w egg) s s' /\ Stuck w egg s' t /\ Lost w egg s' (LChain 0).
Proof. exact (fun w egg E s t R T O => double_take w egg s t (LChain 0) _ R T O (eggmark_call w egg E)). Qed.
Print Assumptions C75_egg_refuted.

(** NUMA statistics of a chain (regions, then page map) beside NUMA statistics of a segment (page map, then regions when the
    C library allocates): the two threads wait for each other. *)
Theorem C75_circle_refuted : forall w egg c z d y, libs_malloc w = true -> source c = Light z -> source d = Light y -> listed d = true ->
  forall s t u, run_any w egg s -> t <> u -> todo s t = [] -> todo s u = [] -> owner s LReg = None -> owner s LPage = None ->
  exists s', goes_star lk lk_eqb (any w egg) s s' /\ Stuck w egg s' t /\ Stuck w egg s' u.
Proof. exact circle. Qed.
Print Assumptions C75_circle_refuted.

(** Thread 0 allocates from chain 1 (shared), whose source is the default source 2, and holds the locks of the chain and of
    the source; thread 1 wants to free in the same chain and waits. *)
Example C75_nontrivial : let w := mkW false false false in let egg := mkC 0 true true (Light 1) false in
  let c := mkC 1 true true (Dflt 2) true in
  calm w /\ egg_ok egg /\ chn_ok c /\ exists s, run w egg s /\ owner s (LChain 1) = Some 0 /\ owner s (LSrc 2) = Some 0 /\
    todo s 0 = [Give (LSrc 2); Take LReg; Give LReg; Give (LChain 1)] /\
    todo s 1 = [Take (LChain 1); Take (LSrc 2); Give (LSrc 2); Take (LChain 0); Give (LChain 0); Give (LChain 1)].
Proof.
  cbv zeta. set (w := mkW false false false). set (egg := mkC 0 true true (Light 1) false). set (c := mkC 1 true true (Dflt 2) true).
  assert (CK : chn_ok c) by (unfold chn_ok; cbn; lia).
  assert (P1 : good w egg [Take (LChain 1); Take (LSrc 2); Give (LSrc 2); Take LReg; Give LReg; Give (LChain 1)]).
  { exists (chain_alloc w c). split; [apply gc_alloc; left; exact CK|]. unfold chain_alloc. apply p_right, p_right.
    change [Take (LChain 1); Take (LSrc 2); Give (LSrc 2); Take LReg; Give LReg; Give (LChain 1)] with
      ([Take (LChain 1)] ++ (([Take (LSrc 2)] ++ [Give (LSrc 2)]) ++ [Take LReg; Give LReg]) ++ [Give (LChain 1)] : list (op lk)).
    apply p_seq; [constructor|]. apply p_seq; [|constructor]. apply p_right. unfold request_mem. cbn [source c source_request].
    apply p_seq; [apply p_seq; constructor|]. unfold prepare_and_reg. cbn [listed c]. apply p_right. apply region_path. }
  assert (P2 : good w egg [Take (LChain 1); Take (LSrc 2); Give (LSrc 2); Take (LChain 0); Give (LChain 0); Give (LChain 1)]).
  { exists (chain_free w egg c). split; [apply gc_free; left; exact CK|]. unfold chain_free, chain_free_h at 1. apply p_right, p_right.
    change [Take (LChain 1); Take (LSrc 2); Give (LSrc 2); Take (LChain 0); Give (LChain 0); Give (LChain 1)] with
      ([Take (LChain 1)] ++ ([] ++ ([Take (LSrc 2)] ++ [Give (LSrc 2)]) ++ ([Take (LChain 0)] ++ [] ++ [Give (LChain 0)])) ++ [Give (LChain 1)]
        : list (op lk)).
    apply p_seq; [constructor|]. apply p_seq; [|constructor]. apply p_right. unfold free_macro_bloc. apply p_right.
    cbn [listed source c dying safe andb source_free]. apply p_seq; [apply p_none|].
    apply p_seq; [apply p_right; apply p_seq; constructor|]. apply p_right. unfold destroy_handler, chain_free_h. apply p_right, p_right.
    apply p_seq; [constructor|]. apply p_seq; [apply p_left; constructor|constructor]. }
  split; [repeat split|]. split; [repeat split; right; eexists; reflexivity|]. split; [exact CK|].
  eexists. split.
  - unfold run. eapply gs_step; [apply (g_call lk lk_eqb _ o0 0 _ eq_refl P1)|].
    eapply gs_step; [eapply (g_call lk lk_eqb _ _ 1 _ _ P2)|].
    eapply gs_step; [apply g_move; eapply (m_take lk lk_eqb _ 0); reflexivity|].
    eapply gs_step; [apply g_move; eapply (m_take lk lk_eqb _ 0); reflexivity|]. apply gs_refl.
  - repeat split.
  Unshelve. reflexivity.
Qed.

(** The hypotheses of the refutations hold at once at the start. *)
Example C75_refuted_nontrivial : let w := mkW true true true in let egg := mkC 0 true true (Light 1) false in
  let c := mkC 1 true true (Dflt 2) false in let d := mkC 3 false true (Light 4) false in
  egg_ok egg /\ chn_ok c /\ chn_ok d /\ map_fails w = true /\ libs_malloc w = true /\ flag_moves w = true /\ safe c = true /\
  source c = Dflt 2 /\ source d = Light 4 /\ listed d = true /\ run_any w egg o0 /\
  forall t l, todo (o0 (lk := lk)) t = [] /\ owner (o0 (lk := lk)) l = None.
Proof.
  cbv zeta. repeat split; try (unfold chn_ok; cbn; lia). { right. eexists. reflexivity. } constructor.
Qed.
