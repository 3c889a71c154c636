(** Executions of the registry with several threads and what C68 says of them.  Nothing here mentions entries or region headers. *)
From Verif Require Import Word Res RegionModel RegConcModel.
From Coq Require Import ZArith List Bool.
Import ListNotations.
Open Scope Z_scope.

(** The address a lookup in progress looks for. *)
Definition looking (p : place) : option Z :=
  match p with
  | PGet w | PTest w | PInitLock w | PFlag w | PClear w | PLock w | PLook w | PMap w | PUnlock w _ | PRead w _ =>
      match w with WFind p | WBack p => Some p | _ => None end
  | PRead2 p _ | PRead3 p _ | PBack2 p _ | PBack3 p _ | PBack4 p _ _ | PHdr p _ _ _ | PBack5 p _ => Some p
  | _ => None
  end.
Definition outside (b sz x z : Z) : Prop := b + sz <= x \/ x + z <= b.
(** What the threads may do: a new segment is apart from all those still mapped, between 4 MB and 2^48, its size a multiple of 2 MB; it is aligned
    on 2 MB, unless the compiler reads the entries once; a segment is given back when it is registered and nobody looks for an address in it; the
    address looked for is in a registered segment. *)
Definition cvalid (once : bool) (s : cst) (x : cact) : Prop :=
  match x with
  | CReg t c b sz => resting (cat s t) = true /\ 4194304 <= b /\ b + sz <= 2 ^ 48 /\ 0 < sz /\ sz mod 2097152 = 0 /\
      (once = true \/ b mod 2097152 = 0) /\ forall y z c', chdr s y = Some (z, c') -> outside b sz y z
  | CUnreg t b => resting (cat s t) = true /\ exists sz, In (b, sz) (clive s) /\ forall u p, looking (cat s u) = Some p -> ~ b <= p < b + sz
  | CFind t p => resting (cat s t) = true /\ exists b sz, In (b, sz) (clive s) /\ b <= p < b + sz
  | CDel t a c => False
  | CGo t => True
  end.
(** Executions from the first registration on, the table being initialised. *)
Inductive creach (once : bool) : cst -> Prop :=
| creach_init : creach once (c0 true)
| creach_step s x s' : creach once s -> cvalid once s x -> cstep once x s = Ok s' -> creach once s'.
(** The threads of [l] make one access each, in this order. *)
Fixpoint turns (once : bool) (l : list nat) (s : cst) : res cst :=
  match l with [] => Ok s | t :: l' => rbind (cgo once t s) (turns once l') end.
(** Executions in which [V] says what the threads may do. *)
Inductive cruns (V : cst -> cact -> Prop) (once : bool) (s0 : cst) : cst -> Prop :=
| cruns_init : cruns V once s0 s0
| cruns_step s x s' : cruns V once s0 s -> V s x -> cstep once x s = Ok s' -> cruns V once s0 s'.
(** As [cvalid], and a thread may look for any address. *)
Definition valid_foreign (once : bool) (s : cst) (x : cact) : Prop :=
  cvalid once s x \/ exists t p, x = CFind t p /\ resting (cat s t) = true /\ 0 <= p < 2 ^ 48.
(** As [cvalid], and a chain that is not NULL may be taken out of the regions. *)
Definition valid_destroy (once : bool) (s : cst) (x : cact) : Prop :=
  cvalid once s x \/ exists t a c, x = CDel t a c /\ resting (cat s t) = true /\ c <> 0 /\ 0 <= a < 2 ^ 48.
