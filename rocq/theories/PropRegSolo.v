(** C70: calls of the registry that do not overlap. *)
From Verif Require Import Word Res RegionModel RegionSpec RegConcModel RegConcSpec RegConcProofs RegConcEx RegSoloSpec RegSoloProofs.
From Coq Require Import ZArith List Bool Lia Arith.
Import ListNotations.
Open Scope Z_scope.

(** A call that no other thread interrupts has the outcome of the function of RegionModel.v, from every state with the lock free, whatever the other
    threads are doing: the same result and table, or the same error. *)
Theorem C70_alone : forall once t a s, good s -> (forall x c, a = RDel x c -> c <> 0) ->
  match rstep a (seen s) with
  | Ok (v, r') => exists n s', solo once t a n s = Ok s' /\ cat s' t = over a v /\ same (seen s') r' /\ good s' /\ forall u, u <> t -> cat s' u = cat s u
  | UB => exists n, solo once t a n s = UB
  | Abort => exists n, solo once t a n s = Abort
  | OutOfFuel => True
  end.
Proof. exact solo_ok. Qed.
Print Assumptions C70_alone.

(** After any execution of several threads, when no call is in progress, the condition above holds. *)
Theorem C70_quiet : forall once s, creach once s -> quiet s -> good s.
Proof. exact quiet_good. Qed.
Print Assumptions C70_quiet.

(** Then a lookup answers exactly, also for an address that no segment holds. *)
Theorem C70_lookup : forall once s t p, creach once s -> quiet s -> 0 <= p < 2 ^ 48 ->
  exists n s' r, solo once t (RFind p) n s = Ok s' /\ cat s' t = PFound p r /\ quiet s' /\
    ((exists sz, In (r, sz) (clive s) /\ r <= p < r + sz) \/ (r = 0 /\ forall b sz, In (b, sz) (clive s) -> ~ b <= p < b + sz)).
Proof. exact quiet_find. Qed.
Print Assumptions C70_lookup.

(** Two registrations that overlapped: the state is quiet, with two segments not aligned on 2 MB. *)
Definition overlap : list cact := CReg 0 1 (5 * MB) (2 * MB) :: go 0 4 ++ CReg 1 1 (7 * MB) (2 * MB) :: go 1 2 ++ go 0 4 ++ go 1 1 ++ go 0 3 ++ go 1 12.
Definition s_quiet : cst := match play false false true true T3 B2 overlap (c0 true) with Some s => s | None => c0 true end.
Example C70_case : creach true s_quiet /\ quiet s_quiet /\ clive s_quiet = [(7 * MB, 2 * MB); (5 * MB, 2 * MB)].
Proof.
  assert (P : play false false true true T3 B2 overlap (c0 true) = Some s_quiet) by (vm_compute; reflexivity).
  assert (R : cruns (valid_any false false true) true (c0 true) s_quiet) by exact (play_ok _ _ _ _ _ _ _ _ _ _ (cruns_init _ _ _) (within_0 _ _ _) P).
  split; [apply runs_creach; exact (cruns_imp _ _ _ _ _ (any_plain true) R)|]. split; [|vm_compute; reflexivity].
  intros t. destruct (play_within _ _ _ _ _ _ _ _ _ (within_0 T3 B2 true) P) as (W & _). destruct (in_dec Nat.eq_dec t T3) as [I|I]; [|rewrite (W t I); reflexivity].
  destruct I as [<-|[<-|[<-|[]]]]; vm_compute; reflexivity.
Qed.
