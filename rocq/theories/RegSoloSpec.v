(** The registry with several threads (RegConcModel.v) seen as the registry of RegionModel.v, for C70. *)
From Verif Require Import Word Res RegionModel RegConcModel RegConcSpec.
From Coq Require Import ZArith List Bool.
Import ListNotations.
Open Scope Z_scope.

(** The table without the numbers of the region headers. *)
Definition seen (s : cst) : rst := mkR (fun id => option_map (ctabs s) (cregs s id)) (chdr s).
(** The same entries and the same headers of segments. *)
Definition same (x y : rst) : Prop :=
  (forall id, match regs x id, regs y id with Some e, Some f => forall i, e i = f i | None, None => True | _, _ => False end) /\
  forall b, hdr x b = hdr y b.
(** The table is initialised, the lock is free, each region has its own header. *)
Definition good (s : cst) : Prop :=
  cini s = true /\ clck s = false /\ (forall id r, cregs s id = Some r -> (r < cnext s)%nat) /\
  forall i j r, cregs s i = Some r -> cregs s j = Some r -> i = j.
(** The beginning of a call by thread [t]. *)
Definition start (t : nat) (a : rop) : cact :=
  match a with RSet c b sz => CReg t c b sz | RUnset b => CUnreg t b | RFind p => CFind t p | RDel a c => CDel t a c end.
(** Thread [t] calls [a] and makes [n] accesses; nobody else runs. *)
Definition solo (once : bool) (t : nat) (a : rop) (n : nat) (s : cst) : res cst := rbind (cstep once (start t a) s) (turns once (repeat t n)).
(** Where a thread is when its call has returned [r]. *)
Definition over (a : rop) (r : Z) : place := match a with RFind p => PFound p r | _ => PDone end.
(** No call is in progress. *)
Definition quiet (s : cst) : Prop := forall t, resting (cat s t) = true.
