(** Executions of the registry with store buffers and what C83 says of them.  Nothing here mentions entries, region headers or the order of stores. *)
From Verif Require Import Word Res RegionModel RegConcModel RegTsoModel.
From Coq Require Import ZArith List Bool.
Import ListNotations.
Open Scope Z_scope.

(** Is the thread outside of a call of the registry. *)
Definition idle (q : spot) : Prop := match q with QIdle | QDone | QFound _ _ _ => True | _ => False end.
(** The address a lookup in progress looks for. *)
Definition seeks (q : spot) : option Z :=
  match q with
  | QGet w | QLock w | QLook w | QMap w | QUnlock w _ | QRead w _ => match w with WFind p | WBack p => Some p | _ => None end
  | QSize p _ | QChain p _ => Some p
  | _ => None
  end.
(** What the threads may do: a new segment is apart from all those mapped, between 4 MB and 2^48, address and size multiples of 2 MB; a thread looks for
    addresses of segments it has a pointer to, and gives such pointers to others; a segment is given back by a thread that has a pointer to it, when no
    other thread has one or is being given one. *)
Definition xvalid (s : xst) (a : xact) : Prop :=
  match a with
  | SReg t c b sz => idle (x_at s t) /\ 4194304 <= b /\ b + sz <= 2 ^ 48 /\ 0 < sz /\ b mod 2097152 = 0 /\ sz mod 2097152 = 0 /\
      forall y z c', In (y, z, c') (x_map s) -> b + sz <= y \/ y + z <= b
  | SUnreg t b => idle (x_at s t) /\ In (t, b) (x_know s) /\ (forall u, In (u, b) (x_know s) -> u = t) /\ forall u v, ~ In (WGive b v) (x_buf s u)
  | SFind t p => idle (x_at s t) /\ exists b sz c, In (t, b) (x_know s) /\ In (b, sz, c) (x_map s) /\ b <= p < b + sz
  | SGive t b u => idle (x_at s t) /\ In (t, b) (x_know s)
  | SDrop t b => idle (x_at s t)
  | SGo t => True
  | SFlush t i => True
  end.
(** Executions. *)
Inductive xreach (fifo fence : bool) : xst -> Prop :=
| xreach_init : xreach fifo fence x0
| xreach_step s a s' : xreach fifo fence s -> xvalid s a -> xstep fifo fence a s = Ok s' -> xreach fifo fence s'.
(** [t] makes [n] accesses. *)
Fixpoint alone (n : nat) (t : nat) (s : xst) : res xst := match n with O => Ok s | S n => rbind (x_go true t s) (alone n t) end.
(** Calls in progress go on, and stores reach memory; no new call starts. *)
Inductive goes_on : xst -> xst -> Prop :=
| goes_same s : goes_on s s
| goes_step s a s1 s' : (exists t, a = SGo t \/ exists i, a = SFlush t i) -> xstep true true a s = Ok s1 -> goes_on s1 s' -> goes_on s s'.
(** The segment that a call in progress registers ([true]) or gives back ([false]). *)
Definition handles (q : spot) : option (bool * Z) :=
  match q with
  | QLoop w | QGet w | QLock w | QLook w | QMap w | QUnlock w _ | QRead w _ | QWrite w _ =>
      match w with WSet b _ => Some (true, b) | WUnset b _ => Some (false, b) | _ => None end
  | QBack b => Some (false, b)
  | _ => None
  end.
