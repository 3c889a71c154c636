(** * High bandwidth memory: the search for the bank, and the node of a processing unit.
    sctk_alloc_topology.c 59-87 (build with hwloc 2), 88-133, 135-158; sctk_alloc_on_node.c 173-200. *)
From Verif Require Import Word Res NodeModel.
From Coq Require Import ZArith String List Bool.
Import ListNotations.
Open Scope Z_scope.

(** A NUMA node as hwloc gives it: logical index, subtype (NULL or a text); topology.c 70-82 read these two fields. *)
Record bank := mkBank { b_idx : Z; b_sub : option string }.
Definition mcdram (b : bank) : bool := match b_sub b with Some s => String.eqb s "MCDRAM" | None => false end.   (* 72-74 *)

(** Where a thread is in sctk_topology_mcdram_detection: outside with the last answer; before the test (63), before the store of -1 (66),
    in the loop with the nodes left (70-82), before the last read (85). *)
Inductive place := BOut (v : option Z) | BTest | BMark | BScan (l : list bank) | BRet.
(** The static variable [res] (62) and the threads. *)
Record bst := mkB { b_res : Z; b_at : nat -> place }.
(** The static variable before the first call, topology.c 62. *)
Definition b0 : bst := mkB (-2) (fun _ => BOut None).
(** A thread goes on (no code of its own in /repo: the program counter). *)
Definition goto (s : bst) (t : nat) (p : place) : bst := mkB (b_res s) (fun u => if Nat.eqb u t then p else b_at s u).
(** Store in the static variable (topology.c 66, 72-81). *)
Definition store (s : bst) (v : Z) : bst := mkB v (b_at s).
(** One access of thread [t] to the static variable; the topology [ns] does not change. *)
Definition bgo (ns : list bank) (t : nat) (s : bst) : bst :=
  match b_at s t with
  | BOut _ => goto s t BTest                                                   (* the call begins *)
  | BTest => goto s t (if b_res s =? -2 then BMark else BRet)                  (* 63 *)
  | BMark => goto (store s (-1)) t (BScan ns)                                  (* 66 *)
  | BScan [] => goto s t BRet                                                  (* 70: no more node *)
  | BScan (b :: l) => goto (if mcdram b then store s (b_idx b) else s) t (BScan l)   (* 72-81 *)
  | BRet => goto s t (BOut (Some (b_res s)))                                   (* 85 *)
  end.
(** A schedule: which thread goes next (no code of its own in /repo). *)
Definition bplay (ns : list bank) (l : list nat) (s : bst) : bst := fold_left (fun s t => bgo ns t s) l s.

(** sctk_hbw_malloc, on_node.c 179-193: the node asked to sctk_malloc_on_node_numa, [v2]: hwloc 2 or later. *)
Definition hbw_node (v2 : bool) (v : Z) : Z := let m := if v2 then v else -1 in if m =? -1 then 0 else m.
(** on_node.c 179-193: the chain of the block. *)
Definition hbw_chain (h : hw) (nodes : Z) (v2 : bool) (v : Z) : res (option Z) := on_node_chain h nodes (hbw_node v2 v).

(** mpcalloc_topology_get_numa_node_from_cpu, topology.c 136-158, hwloc 2: the ancestors of the processing unit from its parent upwards, each with
    its logical index and the logical indices of its memory children; NULL for an unknown processing unit.  NULL is read for an unknown unit and when
    no ancestor has memory. *)
Record anc := mkAnc { a_idx : Z; a_mem : list Z }.
Fixpoint walk_up (l : list anc) : res Z :=
  match l with
  | [] => UB                                                                   (* 152: parent is NULL *)
  | a :: l' => match a_mem a with [] => walk_up l' | _ :: _ => Ok (a_idx a) end   (* 147-152 *)
  end.
(** topology.c 135-158, from the test for NUMA nodes on. *)
Definition from_cpu (has : bool) (pu : option (list anc)) : res Z :=
  if has then match pu with None => UB | Some l => walk_up l end else Ok 0.
