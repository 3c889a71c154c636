(** NUMA nodes: the preferred node of a thread (topology.c 163-363), the chains of malloc_on_node (on_node.c 60-170, 207-214), the binding of
    segments by light sources (light_mm_source.c 89-135, 194-230, 241-265, 479-508, 615-655) and its change (topology.c 378-439,
    allocator.c 2822-2844).  Model only, no proofs.

    hwloc is not modelled: its answers are arguments.  A bitmap is a list of bits.  Addresses and contents of segments play no role here
    (LightModel.v, NumaModel.v), a segment is a size and the node it is bound to.  Debug assertions are off. *)
From Verif Require Import Res.
From Coq Require Import ZArith List Bool.
Import ListNotations.
Open Scope Z_scope.
Local Notation "x <- e ;; k" := (rbind e (fun x => k)) (at level 61, e at next level, right associativity).

(** ** hwloc bitmaps: hwloc_bitmap_first, _last, _next, _isset, _weight *)
(** A bit from [i] on (no code of its own in /repo: hwloc). *)
Fixpoint bm_next_from (i : Z) (b : list bool) : Z := match b with [] => -1 | x :: b => if x then i else bm_next_from (i + 1) b end.
(** hwloc_bitmap_first, called at topology.c 165. *)
Definition bm_first (b : list bool) : Z := bm_next_from 0 b.
(** hwloc_bitmap_next, called at topology.c 171. *)
Definition bm_next (b : list bool) (i : Z) : Z := bm_next_from (i + 1) (skipn (Z.to_nat (i + 1)) b).
(** hwloc_bitmap_isset, called at topology.c 169. *)
Definition bm_isset (b : list bool) (i : Z) : bool := (0 <=? i) && nth (Z.to_nat i) b false.
(** The last bit from [i] on (no code of its own in /repo: hwloc). *)
Fixpoint bm_last_from (i : Z) (b : list bool) : Z :=
  match b with [] => -1 | x :: b => let r := bm_last_from (i + 1) b in if r =? -1 then (if x then i else -1) else r end.
(** hwloc_bitmap_last, called at topology.c 164. *)
Definition bm_last (b : list bool) : Z := bm_last_from 0 b.
(** hwloc_bitmap_weight, called at topology.c 233 and 280. *)
Fixpoint bm_weight (b : list bool) : Z := match b with [] => 0 | x :: b => (if x then 1 else 0) + bm_weight b end.

(** topology.c 162-174 [sctk_get_first_bit_in_bitmap], the loop. *)
Fixpoint first_bit_loop (fuel : nat) (b : list bool) (current last : Z) : res Z :=
  match fuel with
  | O => OutOfFuel
  | S fuel => if current =? last then Ok current else if bm_isset b current then Ok current else first_bit_loop fuel b (bm_next b current) last
  end.
(** topology.c 162-174. *)
Definition get_first_bit (b : list bool) : res Z := first_bit_loop (S (length b)) b (bm_first b) (bm_last b).

(** What hwloc answers: are there nodes; hwloc_get_membind by nodeset and by cpuset, hwloc_get_cpubind (status 0: success; the bitmap);
    hwloc_cpuset_to_nodeset; where getcpu is compiled in: the node that it gives and the logical index that hwloc has for the processing
    unit. (Calls of hwloc at topology.c 193-225, 263-272, 325-338.) *)
Record hw := mkHw { has_nodes : bool; memb_status : Z; memcpu_status : Z; memcpu : list bool; cpub_status : Z; cpub : list bool;
                    to_nodes : list bool -> list bool; getcpu : option (Z * Z) }.
(** topology.c 180-242: the node and the number of bitmaps that stay allocated. *)
Definition pref_numa_binding (h : hw) : res (Z * nat) :=
  if negb (has_nodes h) then Ok (-1, 2%nat)                                   (* 193-194 *)
  else if memb_status h =? 0 then Ok (-1, 2%nat)                              (* 204-205 *)
  else if memcpu_status h =? 0 then Ok (-1, 2%nat)                            (* 216-217 *)
  else let n := to_nodes h (memcpu h) in                                      (* 225 *)
       if bm_weight n =? 1 then x <- get_first_bit n;; Ok (x, 0%nat) else Ok (-1, 0%nat).
(** topology.c 249-289. *)
Definition pref_thread_binding (h : hw) : res (Z * nat) :=
  if cpub_status h =? 0 then Ok (-1, 2%nat)                                   (* 263-264 *)
  else let n := to_nodes h (cpub h) in
       if bm_weight n =? 1 then x <- get_first_bit n;; Ok (x, 0%nat) else Ok (-1, 0%nat).
(** topology.c 296-308: the first result is overwritten. *)
Definition preferred (h : hw) : res (Z * nat) :=
  r1 <- pref_numa_binding h;; r2 <- pref_thread_binding h;; Ok (fst r2, (snd r1 + snd r2)%nat).
(** topology.c 356-363, 345-351 and 325-338: the logical index of the processing unit is returned as a node. *)
Definition init_on_node (h : hw) : res Z :=
  r <- preferred h;; Ok (if fst r =? -1 then match getcpu h with Some k => snd k | None => -1 end else fst r).
(** posix.c 320-368, start-up over, NUMA in use, no round robin: the number of the source.  The sources are those of the nodes and the
    default one; the others are NULL and [res->request_memory] is read (363). *)
Definition DEFAULT_ID : Z := 128.
(** posix.c 320-368. *)
Definition local_source (nodes : Z) (h : hw) : res Z :=
  r <- init_on_node h;;
  let node := if r =? -1 then DEFAULT_ID else r in
  if 128 <? node then Abort else if ((0 <=? node) && (node <? nodes)) || (node =? DEFAULT_ID) then Ok node else UB.

(** ** Binding *)
(** A segment: its size and the node that its pages are bound to. (light_mm_source.h 59-65: free_macro_bloc; the binding is that of the system.) *)
Definition bseg := (Z * option Z)%type.
(** sctk_alloc_light_mm_source.h, lines 71 to 93: numa_node (-1: none), nodeset (the node in it), mode, cache. *)
Record nsrc := mkNs { nnode : Z; nset : option Z; nstrict : bool; ncache : list bseg }.
(** light_mm_source.c 89-135. *)
Definition ns_init (node : Z) (strict : bool) : nsrc := mkNs node (if strict && negb (node =? -1) then Some node else None) strict [].
(** light_mm_source.c 219-221, 495-497 with 241-265: the binding of a new or inserted segment, whose pages were bound to [old]. *)
Definition ns_bind (s : nsrc) (old : option Z) : option Z :=
  if nstrict s && negb (nnode s =? -1) then (match nset s with Some k => Some k | None => old end) else old.
(** light_mm_source.c 360-426 [find_in_cache]: the first segment of the size. *)
Fixpoint ns_take (n : Z) (l : list bseg) : option (bseg * list bseg) :=
  match l with
  | [] => None
  | x :: l => if fst x =? n then Some (x, l) else match ns_take n l with Some (r, l') => Some (r, x :: l') | None => None end
  end.
(** light_mm_source.c 432-473: [cached]: the cache is searched (size at most keep_max). *)
Definition ns_request (s : nsrc) (n : Z) (cached : bool) : nsrc * bseg :=
  match (if cached then ns_take n (ncache s) else None) with
  | Some (x, l) => (mkNs (nnode s) (nset s) (nstrict s) l, x)
  | None => (s, (n, ns_bind s None))
  end.
(** light_mm_source.c 531-561: [keep]: the segment goes to the cache. *)
Definition ns_free (s : nsrc) (x : bseg) (keep : bool) : nsrc := if keep then mkNs (nnode s) (nset s) (nstrict s) (x :: ncache s) else s.
(** light_mm_source.c 194-230. *)
Definition ns_insert (s : nsrc) (x : bseg) : nsrc := mkNs (nnode s) (nset s) (nstrict s) ((fst x, ns_bind s (snd x)) :: ncache s).
(** topology.c 378-439 [sctk_alloc_migrate_numa_mem] of one area; [nodes]: number of nodes, [on]: numa_migration.  The object of the node is
    asked from hwloc (NULL if there is no such node, in particular for -1) and its nodeset is read in both branches. *)
Definition migrate_mem (nodes : Z) (on : bool) (target : Z) (x : bseg) : res bseg :=
  if (fst x =? 0) || negb on then Ok x
  else if (0 <=? target) && (target <? nodes) then Ok (fst x, Some target) else UB.
(** The loops of light_mm_source.c 644-650 and allocator.c 2640-2655. *)
Fixpoint migrate_all (nodes : Z) (on : bool) (target : Z) (l : list bseg) : res (list bseg) :=
  match l with [] => Ok [] | x :: l => y <- migrate_mem nodes on target x;; r <- migrate_all nodes on target l;; Ok (y :: r) end.
(** light_mm_source.c 615-655. *)
Definition ns_migrate (nodes : Z) (on : bool) (target : Z) (s : nsrc) : res nsrc :=
  if negb on then Ok s
  else if target =? nnode s then Ok s
  else if target =? -1 then Ok (mkNs (-1) (nset s) (nstrict s) (ncache s))
  else c <- migrate_all nodes on target (ncache s);; Ok (mkNs (nnode s) (nset s) (nstrict s) c).

(** ** malloc_on_node *)
(** on_node.c 60-97: the chains and their sources; [None]: a chain without source. *)
Definition on_node_init (h : hw) (nodes : Z) (i : Z) : option nsrc :=
  if has_nodes h && (0 <=? i) && (i <? nodes) then Some (ns_init i true) else None.
(** on_node.c 125-129: the source of entry [node] of the array of 128 chains; outside the array the access is undefined. *)
Definition on_node_entry (h : hw) (nodes node : Z) : res (option nsrc) :=
  if (node <? 0) || (128 <=? node) then UB else Ok (on_node_init h nodes node).
(** on_node.c 115-170, 207-214: the chain used for [node], or the chain of the thread ([None]). *)
Definition on_node_chain (h : hw) (nodes : Z) (node : Z) : res (option Z) :=
  if has_nodes h then
    if (0 <=? node) && (node <? 128) then rbind (on_node_entry h nodes node) (fun x => match x with Some _ => Ok (Some node) | None => Abort end) else Abort
  else if node =? 0 then Ok None else Abort.
(** The sources of the chains of malloc_on_node and the segments of these chains.  A chain asks its source for a segment, gives one back;
    a segment is inserted in a source; a source is migrated; a chain is migrated to the source of another one (allocator.c 2822-2844:
    content, then source). *)
Record nst := mkNst { nsrcs : nat -> nsrc; nsegs : nat -> list bseg; nlink : nat -> nat }.
(** What may happen: light_mm_source.c 432-473, 531-561, 194-230, 615-655; allocator.c 2822-2844. *)
Inductive nact :=
| NReq (c : nat) (n : Z) (cached : bool) | NFree (c : nat) (i : nat) (keep : bool) | NIns (j : nat) (x : bseg) | NMigSrc (j : nat) (target : Z)
| NMigChain (c : nat) (target : Z) (j : option nat).
(** Update of a function (no code of its own in /repo). *)
Definition nupd {A} (f : nat -> A) (i : nat) (v : A) : nat -> A := fun x => if Nat.eqb x i then v else f x.
(** A segment leaves its chain (no code of its own in /repo). *)
Definition remove_nth {A} (i : nat) (l : list A) : list A := firstn i l ++ skipn (S i) l.
(** One action of [nact]: light_mm_source.c 432-473, 531-561, 194-230, 615-655; allocator.c 2822-2844. *)
Definition nstep (nodes : Z) (on : bool) (a : nact) (s : nst) : res nst :=
  match a with
  | NReq c n cached => let j := nlink s c in let (q, x) := ns_request (nsrcs s j) n cached in Ok (mkNst (nupd (nsrcs s) j q) (nupd (nsegs s) c (x :: nsegs s c)) (nlink s))
  | NFree c i keep =>
      match nth_error (nsegs s c) i with
      | Some x => let j := nlink s c in Ok (mkNst (nupd (nsrcs s) j (ns_free (nsrcs s j) x keep)) (nupd (nsegs s) c (remove_nth i (nsegs s c))) (nlink s))
      | None => Ok s
      end
  | NIns j x => Ok (mkNst (nupd (nsrcs s) j (ns_insert (nsrcs s j) x)) (nsegs s) (nlink s))
  | NMigSrc j t => q <- ns_migrate nodes on t (nsrcs s j);; Ok (mkNst (nupd (nsrcs s) j q) (nsegs s) (nlink s))
  | NMigChain c t j =>
      l <- migrate_all nodes on t (nsegs s c);;
      Ok (mkNst (nsrcs s) (nupd (nsegs s) c l) (match j with Some j => nupd (nlink s) c j | None => nlink s end))
  end.
(** After on_node_init: chain [i] has the strict source [i]. (on_node.c 60-97.) *)
Definition nst0 : nst := mkNst (fun i => ns_init (Z.of_nat i) true) (fun _ => []) (fun i => i).
