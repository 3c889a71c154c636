(** Threads sharing a thread-safe chain: the contract that a program respects, read on the history of calls and returns. *)
From Verif Require Import Word Res Mem ChainModel ChainSpec AtomicModel.
From Coq Require Import ZArith List Bool.
Import ListNotations.
Open Scope Z_scope.

(** The memory that the source gives, if asked, in the calls of a history. *)
Fixpoint grants (h : list (cev op Z)) : list (Z * Z) :=
  match h with
  | [] => []
  | ECall _ (OAlloc d n (Some b)) :: r => (b, ask_size d n) :: grants r
  | _ :: r => grants r
  end.

(** A request on a chain with a memory source: it is not huge (huge requests do not take the lock), and what the source answers is
    fresh memory: outside the structure of the chain, its first segments [L] and what the source has given before. *)
Definition fresh_grant (g : cfg) (L : list (Z * Z)) (d n : Z) (gr : option Z) : Prop :=
  ~ huge d n /\
  forall b, gr = Some b -> 0 < b /\ b + ask_size d n <= 2 ^ 56 /\ b mod 8 = 0 /\
    forall r, In r ((cpool g, POOL_SIZE) :: L) -> apart (b, ask_size d n) r.

(** [contract g o0 h q own]: in the history [h] on the chain [g], first observed as [o0], threads only allocate and free; requests
    have an alignment that is a power of two and do not wrap around; a thread frees NULL or an address that some allocation
    returned and that nobody passed to free since.  [q t]: the call thread [t] is in; [own p]: address [p] was returned and not
    passed to free since. *)
Inductive contract (g : cfg) (o0 : obs) : list (cev op Z) -> (nat -> option op) -> (Z -> bool) -> Prop :=
| con_nil : contract g o0 [] (fun _ => None) (fun _ => false)
| con_alloc h q own q' t d n gr : contract g o0 h q own ->
    0 <= n -> (d = 0 \/ exists k, 0 <= k /\ d = 2 ^ k) -> n + d < 2 ^ 63 - 64 ->
    (csrc g = true -> fresh_grant g (segs o0 ++ grants h) d n gr) ->
    q t = None -> q' t = Some (OAlloc d n gr) -> (forall u, u <> t -> q' u = q u) ->
    contract g o0 (h ++ [ECall t (OAlloc d n gr)]) q' own
| con_free h q own q' own' t p : contract g o0 h q own ->
    p = 0 \/ own p = true -> own' p = false -> (forall x, x <> p -> own' x = own x) ->
    q t = None -> q' t = Some (OFree p) -> (forall u, u <> t -> q' u = q u) ->
    contract g o0 (h ++ [ECall t (OFree p)]) q' own'
| con_ret_alloc h q own q' own' t d n gr r : contract g o0 h q own ->
    q t = Some (OAlloc d n gr) -> q' t = None -> (forall u, u <> t -> q' u = q u) ->
    own' r = negb (r =? 0) -> (forall x, x <> r -> own' x = own x) ->
    contract g o0 (h ++ [ERetn t r]) q' own'
| con_ret_free h q own q' t p r : contract g o0 h q own ->
    q t = Some (OFree p) -> q' t = None -> (forall u, u <> t -> q' u = q u) ->
    contract g o0 (h ++ [ERetn t r]) q' own.
