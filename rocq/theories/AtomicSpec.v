(** Linearizability of a history of calls and returns. *)
From Verif Require Import Res AtomicModel.
From Coq Require Import ZArith List Bool.
Import ListNotations.

(** A history where each call that took effect is marked by the point where it did, with its result. *)
Inductive hev (A R : Type) : Type := HCall (t : nat) (a : A) | HLin (t : nat) (a : A) (r : R) | HRet (t : nat) (r : R).
Arguments HCall {A R} t a.
Arguments HLin {A R} t a r.
Arguments HRet {A R} t r.

(** The history seen from outside. *)
Fixpoint erase {A R} (h : list (hev A R)) : list (cev A R) :=
  match h with
  | [] => []
  | HCall t a :: r => ECall t a :: erase r
  | HRet t x :: r => ERetn t x :: erase r
  | HLin _ _ _ :: r => erase r
  end.

(** The calls in the order of the points where they took effect. *)
Fixpoint points {A R} (h : list (hev A R)) : list (A * R) :=
  match h with [] => [] | HLin _ a r :: l => (a, r) :: points l | _ :: l => points l end.

(** Each call takes effect exactly once, between the call and the return, with the result that is returned.
    Read from left to right, per thread: nothing, called, done. *)
Inductive tph (A R : Type) : Type := Nothing | Called (a : A) | Done (r : R).
Arguments Nothing {A R}.
Arguments Called {A R} a.
Arguments Done {A R} r.
Inductive well {A R} : list (hev A R) -> (nat -> tph A R) -> Prop :=
| well_nil : well [] (fun _ => Nothing)
| well_call h f t a g : well h f -> f t = Nothing -> g t = Called a -> (forall u, u <> t -> g u = f u) -> well (h ++ [HCall t a]) g
| well_lin h f t a r g : well h f -> f t = Called a -> g t = Done r -> (forall u, u <> t -> g u = f u) -> well (h ++ [HLin t a r]) g
| well_ret h f t r g : well h f -> f t = Done r -> g t = Nothing -> (forall u, u <> t -> g u = f u) -> well (h ++ [HRet t r]) g.

(** Running the calls one after another gives these results. *)
Inductive in_order {S A R} (step : A -> S -> res (R * S)) : S -> list (A * R) -> S -> Prop :=
| in_order_nil s : in_order step s [] s
| in_order_snoc s l s1 a r s2 : in_order step s l s1 -> step a s1 = Ok (r, s2) -> in_order step s (l ++ [(a, r)]) s2.

(** Executions of the threads. *)
Inductive cexec {S A R} (P : A -> prog S R) (s0 : S) : cst S A R -> Prop :=
| cexec_init : cexec P s0 (mkC s0 0%Z (fun _ => TOut) [])
| cexec_step c x c' : cexec P s0 c -> cstep P c x = Some c' -> cexec P s0 c'.

Definition linearizable {S A R} (step : A -> S -> res (R * S)) (s0 : S) (h : list (cev A R)) : Prop :=
  exists h' f s, erase h' = h /\ well h' f /\ in_order step s0 (points h') s.
(** Nobody is in the section. *)
Definition quiet {S A R} (c : cst S A R) : Prop := forall t, match thr c t with TIn _ => False | _ => True end.
