(** What is expected of the preferred node and of the binding of memory. *)
From Verif Require Import Res NodeModel.
From Coq Require Import ZArith List Bool.
Import ListNotations.
Open Scope Z_scope.

(** The set of bit numbers of a bitmap. *)
Definition bit (b : list bool) (i : nat) : Prop := nth i b false = true.
Definition least_bit (b : list bool) (i : nat) : Prop := bit b i /\ forall k, bit b k -> (i <= k)%nat.
Definition only_bit (b : list bool) (i : nat) : Prop := forall k, bit b k <-> k = i.
(** hwloc knows the cores of the thread and they all belong to node [k]. *)
Definition thread_on (h : hw) (k : nat) : Prop := has_nodes h = true /\ cpub_status h = 0 /\ only_bit (to_nodes h (cpub h)) k.

(** Histories of the chains and sources of malloc_on_node.  Valid: sizes are positive, a segment is inserted with any binding; a chain is
    moved to the source of node [j] with its content, with migration switched on; a source is not moved to another node. *)
Definition nvalid (nodes : Z) (on : bool) (s : nst) (a : nact) : Prop :=
  match a with
  | NReq _ n _ => 0 < n
  | NFree _ _ _ => True
  | NIns _ x => 0 < fst x
  | NMigSrc j t => on = false \/ t = Z.of_nat j
  | NMigChain _ t (Some j) => on = true /\ t = Z.of_nat j /\ t < nodes
  | NMigChain c t None => on = false \/ (t = Z.of_nat (nlink s c) /\ t < nodes)
  end.
Inductive nreach (nodes : Z) (on : bool) : nst -> Prop :=
| nreach_0 : nreach nodes on nst0
| nreach_s s a s' : nreach nodes on s -> nvalid nodes on s a -> nstep nodes on a s = Ok s' -> nreach nodes on s'.
Inductive nruns (nodes : Z) (on : bool) : nst -> list nact -> nst -> Prop :=
| nruns_0 s : nruns nodes on s [] s
| nruns_s s a s1 l s2 : nstep nodes on a s = Ok s1 -> nruns nodes on s1 l s2 -> nruns nodes on s (a :: l) s2.
(** All the memory of a chain is bound to the node of its source, and so is the cache of each source. *)
Definition all_bound (s : nst) : Prop :=
  (forall c x, In x (nsegs s c) -> snd x = Some (Z.of_nat (nlink s c))) /\ (forall j x, In x (ncache (nsrcs s j)) -> snd x = Some (Z.of_nat j)).
