(** What the functions on the page map should guarantee. *)
From Verif Require Import Res PageModel.
From Coq Require Import List Bool Arith.
Import ListNotations.

Inductive preach (pm : nat -> nat) : pst -> Prop :=
| preach_0 : preach pm p0
| preach_s s x s' : preach pm s -> pstep pm x s = Ok s' -> preach pm s'.
Fixpoint pplay (pm : nat -> nat) (l : list pact) (s : pst) : res pst :=
  match l with [] => Ok s | x :: l => rbind (pstep pm x s) (pplay pm l) end.
(** The thread uses the file or the variable under the lock. *)
Definition holding (p : place) : Prop :=
  match p with OTest | OUnlock | RSeek _ _ _ | RRead _ _ _ | RUnlock _ _ _ _ | XTest | XUnlock => True | _ => False end.
(** The thread is in a call that reads the page map. *)
Definition reading (p : place) : Prop :=
  match p with DTest _ _ | RTest _ _ _ | RLock _ _ _ | RSeek _ _ _ | RRead _ _ _ | RUnlock _ _ _ _ => True | _ => False end.
(** Calls of print_detail. *)
Definition detailing (p : place) : Prop :=
  match p with DTest _ _ | RTest Detail _ _ | RLock Detail _ _ | RSeek Detail _ _ | RRead Detail _ _ | RUnlock Detail _ _ _ | Use Detail _ _ _ => True | _ => False end.
(** The entries of the pages [a] to [a + n - 1]. *)
Definition entries (pm : nat -> nat) (a n : nat) : list nat := map (fun i => pm (a + i)) (seq 0 n).
(** A program that initialises a statistic before it reads (numa_stat.h: the statistic is initialised first), for both kinds of reading. *)
Definition init_first (s : pst) (x : pact) : Prop := match x with PRead t _ _ | PDetail t _ _ => p_init s t = true | _ => True end.
Inductive pgood (pm : nat -> nat) : pst -> Prop :=
| pgood_0 : pgood pm p0
| pgood_s s x s' : pgood pm s -> init_first s x -> pstep pm x s = Ok s' -> pgood pm s'.
