(** C68: the registry of segments with several threads. *)
From Verif Require Import Word Res RegionModel RegConcModel RegConcSpec RegConcProofs RegConcEx.
From Coq Require Import ZArith List Bool Lia Arith.
Import ListNotations.
Open Scope Z_scope.

(** A lookup returns the registered segment that holds the address, whatever the other threads register and unregister meanwhile. *)
Theorem C68_lookup : forall once s t p s' p' r,
  creach once s -> looking (cat s t) = Some p -> cgo once t s = Ok s' -> cat s' t = PFound p' r ->
  p' = p /\ exists sz, In (r, sz) (clive s') /\ r <= p < r + sz.
Proof. exact found_reach. Qed.
Print Assumptions C68_lookup.

(** No interleaving stops the program (2335) or reads the header of a segment that has been given back. *)
Theorem C68_no_stop : forall once s x, creach once s -> cvalid once s x -> exists s', cstep once x s = Ok s' /\ creach once s'.
Proof.
  exact (fun once s x R V => match cstep_ok once s x (creach_inv once s R) V with ex_intro _ s' (conj E _) => ex_intro _ s' (conj E (creach_step once s x s' R V E)) end).
Qed.
Print Assumptions C68_no_stop.

(** From every state the threads have a way to let a call that has started return; a lookup then answers right. *)
Theorem C68_ends : forall once s t, creach once s -> resting (cat s t) = false ->
  exists l s', turns once l s = Ok s' /\ creach once s' /\ resting (cat s' t) = true /\
    forall p, looking (cat s t) = Some p -> exists r sz, cat s' t = PFound p r /\ In (r, sz) (clive s') /\ r <= p < r + sz.
Proof. exact can_end. Qed.
Print Assumptions C68_ends.

(** The part of the table for a region is created once: no thread ever replaces it. *)
Theorem C68_region_kept : forall once s x s' id r, creach once s -> cvalid once s x -> cstep once x s = Ok s' -> cregs s id = Some r -> cregs s' id = Some r.
Proof. exact (fun once s x s' id r R => region_stays once s x s' id r (creach_inv once s R)). Qed.
Print Assumptions C68_region_kept.

(** The theorems apply to a state with two segments that are not aligned on 2 MB and two lookups in progress. *)
Example C68_case : creach true s_two /\ looking (cat s_two 1%nat) = Some PX /\ looking (cat s_two 2%nat) = Some (7 * MB + 1) /\
  (exists s', cgo true 2 s_two = Ok s' /\ cat s' 2%nat = PFound (7 * MB + 1) (7 * MB)) /\ clck s_two = false /\
  cvalid true s_two (CFind 0 (5 * MB)) /\ cvalid true s_two (CReg 0 3 (20 * MB) (2 * MB)) /\ cregs s_two 0 = Some 0%nat.
Proof.
  assert (P : play false false true true T3 B2 (regs2 ++ CFind 1 PX :: go 1 3 ++ CFind 2 (7 * MB + 1) :: go 2 1) (c0 true) = Some s_two) by (vm_compute; reflexivity).
  assert (R : cruns (valid_any false false true) true (c0 true) s_two) by exact (play_ok _ _ _ _ _ _ _ _ _ _ (cruns_init _ _ _) (within_0 _ _ _) P).
  split; [apply runs_creach; exact (cruns_imp _ _ _ _ _ (any_plain true) R)|]. split; [vm_compute; reflexivity|]. split; [vm_compute; reflexivity|].
  split; [eexists; split; [vm_compute; reflexivity|vm_compute; reflexivity]|]. split; [vm_compute; reflexivity|].
  assert (W : within T3 [5 * MB; 7 * MB; 20 * MB] s_two).
  { assert (P' : play false false true true T3 [5 * MB; 7 * MB; 20 * MB] (regs2 ++ CFind 1 PX :: go 1 3 ++ CFind 2 (7 * MB + 1) :: go 2 1) (c0 true) = Some s_two) by (vm_compute; reflexivity).
    exact (play_within _ _ _ _ _ _ _ _ _ (within_0 _ _ _) P'). }
  split; [apply any_plain; apply (validb_any _ _ _ _ _ _ _ W); vm_compute; reflexivity|].
  split; [apply any_plain; apply (validb_any _ _ _ _ _ _ _ W); vm_compute; reflexivity|vm_compute; reflexivity].
Qed.

(** A compiler that reads an entry at each mention of it (2402): with segments that are not aligned, as those of a user's source may be, a lookup
    answers NULL for an address of a registered segment, the segment after it being unregistered meanwhile. *)
Theorem C68_double_read_refuted : exists s t p s',
  cruns (cvalid true) false (c0 true) s /\ looking (cat s t) = Some p /\ (exists b sz, In (b, sz) (clive s) /\ b <= p < b + sz) /\
  cgo false t s = Ok s' /\ cat s' t = PFound p 0 /\ clive s' = clive s.
Proof.
  assert (P : play false false true false T3 B2 (regs2 ++ CFind 1 PX :: go 1 2 ++ CUnreg 0 (7 * MB) :: go 0 5 ++ go 1 1) (c0 true) = Some s_double) by (vm_compute; reflexivity).
  pose proof (play_ok _ _ _ _ _ _ _ _ _ _ (cruns_init _ _ _) (within_0 _ _ _) P) as R.
  exists s_double, 1%nat, PX. eexists. split; [exact (cruns_imp _ _ _ _ _ (any_plain true) R)|]. split; [vm_compute; reflexivity|].
  split; [exists (5 * MB), (2 * MB); split; [vm_compute; left; reflexivity|vm_compute; split; [discriminate|reflexivity]]|].
  split; [vm_compute; reflexivity|]. split; vm_compute; reflexivity.
Qed.
Print Assumptions C68_double_read_refuted.

(** The table initialised by the first registrations (2209, 2476-2484): a thread that sets the flag before it clears the table erases what another
    has registered meanwhile; a lookup in a registered segment then answers NULL. *)
Theorem C68_init_refuted : exists s t p s',
  cruns (cvalid true) true (c0 false) s /\ looking (cat s t) = Some p /\ (exists b sz, In (b, sz) (clive s) /\ b <= p < b + sz) /\
  cgo true t s = Ok s' /\ cat s' t = PFound p 0 /\ clive s' = clive s.
Proof.
  assert (P : play false false true true T3 [8 * MB; 16 * MB] (CReg 1 1 (16 * MB) (2 * MB) :: go 1 5 ++ CReg 0 1 (8 * MB) (2 * MB) :: go 0 11 ++ go 1 1 ++ CFind 0 (8 * MB) :: go 0 8) (c0 false) = Some s_init) by (vm_compute; reflexivity).
  pose proof (play_ok _ _ _ _ _ _ _ _ _ _ (cruns_init _ _ _) (within_0 _ _ _) P) as R.
  exists s_init, 0%nat, (8 * MB). eexists. split; [exact (cruns_imp _ _ _ _ _ (any_plain true) R)|]. split; [vm_compute; reflexivity|].
  split; [exists (8 * MB), (2 * MB); split; [vm_compute; left; reflexivity|vm_compute; split; [discriminate|reflexivity]]|].
  split; [vm_compute; reflexivity|]. split; vm_compute; reflexivity.
Qed.
Print Assumptions C68_init_refuted.

(** Looking for an address that no segment holds (free of a block of another allocator): the header read at 2406 may have been given back. *)
Theorem C68_foreign_refuted : exists s t, cruns (valid_foreign true) true (c0 true) s /\ cgo true t s = UB.
Proof.
  assert (P : play true false true true T3 [8 * MB] (CReg 0 1 (8 * MB) (2 * MB) :: go 0 11 ++ CFind 1 (10 * MB) :: go 1 4 ++ CUnreg 0 (8 * MB) :: go 0 5) (c0 true) = Some s_foreign) by (vm_compute; reflexivity).
  pose proof (play_ok _ _ _ _ _ _ _ _ _ _ (cruns_init _ _ _) (within_0 _ _ _) P) as R.
  exists s_foreign, 1%nat. split; [exact (cruns_imp _ _ _ _ _ (any_foreign true) R)|]. vm_compute; reflexivity.
Qed.
Print Assumptions C68_foreign_refuted.

(** A chain is destroyed (2363-2384) while another thread gives back a segment of its own chain: the entry is NULL when it is followed (2378). *)
Theorem C68_destroy_refuted : exists s t, cruns (valid_destroy true) true (c0 true) s /\ cgo true t s = UB.
Proof.
  assert (P : play false true true true T3 [8 * MB] (CReg 0 1 (8 * MB) (2 * MB) :: go 0 11 ++ CDel 1 (8 * MB) 2 :: go 1 5 ++ CUnreg 0 (8 * MB) :: go 0 5) (c0 true) = Some s_destroy) by (vm_compute; reflexivity).
  pose proof (play_ok _ _ _ _ _ _ _ _ _ _ (cruns_init _ _ _) (within_0 _ _ _) P) as R.
  exists s_destroy, 1%nat. split; [exact (cruns_imp _ _ _ _ _ (any_destroy true) R)|]. vm_compute; reflexivity.
Qed.
Print Assumptions C68_destroy_refuted.
