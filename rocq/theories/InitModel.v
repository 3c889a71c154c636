(** Start-up of the library and choice of the memory source of a new thread, with any number of threads:
    sctk_alloc_posix.c 198-280 (memory sources), 299-368 (round robin and source of a thread), 392-477 [sctk_alloc_posix_base_init],
    483-515 [sctk_alloc_posix_create_new_tls_chain].  Model only, no proofs.

    Simplifications: the mutex of base_init is atomic (pthread_mutex); the work inside each initialisation step is one action; reads and
    writes of sctk_global_base_init are atomic and sequentially consistent; allocations made by hwloc or getenv while the library starts go to
    the egg (437) and are not shown; out of memory in the egg is not considered (see PosixModel.v). *)
From Verif Require Import Res.
From Coq Require Import List Bool Arith.
Import ListNotations.

(** Compiled with HAVE_HWLOC; number of NUMA nodes (topology.c 101-121); configuration flags numa (config.c 86, 100) and numa_round_robin. *)
Record machine := mkMach { hw : bool; nodes : nat; numa : bool; robin : bool }.
(** common.h 131-140: SCTK_MAX_NUMA_NODE, also SCTK_DEFAULT_NUMA_MM_SOURCE_ID. *)
Definition max_node (m : machine) : nat := if hw m then 128 else 1.

(** What is initialised. (Work done at sctk_alloc_posix.c 421, 426, 445-451, 456, 460, 254-276.) *)
Inductive doing := ConfigDefaults | EggChain | Topology | Source (id : nat) | ConfigUser | EggSource | OnNode.
(** Instructions of the critical section: work, [sctk_global_base_init = v], [assume_m (sctk_global_base_init == v)], [assume_m (nodes <= max)].
    Values of the state: 0 none, 1 egg, 2 default, 3 numa (66-72). *)
Inductive instr := Do (d : doing) | State (v : nat) | Need (v : nat) | NeedNodes.
(** 246-280 [sctk_alloc_posix_mmsrc_numa_init_phase_numa] *)
Definition numa_phase (m : machine) : list instr :=
  if hw m then
    [Need 2; NeedNodes] ++ (if nodes m <=? 1 then [Do (Source 0)] else map (fun i => Do (Source i)) (seq 0 (nodes m))) ++ [Do OnNode]   (* 254-276 *)
  else [].
(** 406-473 *)
Definition section (m : machine) : list instr :=
  [Do ConfigDefaults; Do EggChain; State 1] ++                                            (* 421-440 *)
  (if hw m then [Do Topology; Need 1; Do (Source 128)] else [Need 1; Do (Source 0)]) ++   (* 445-451; 198-208, 211-243 *)
  [Do ConfigUser; Do EggSource; State 2] ++                                               (* 456-463 *)
  numa_phase m ++ [State 3].                                                              (* 468; 279 *)

(** Where a thread is: outside; base_init before the first test (398), before the lock (402), before the second test (405), in the section
    before instruction [k], before the unlock; create_new_tls_chain before the allocation of the structure (499); get_local_mm_source
    before its two reads of the state (331-332), before the end with the node chosen so far ([None] is -1, 342-363); with a source. *)
Inductive place := Out | Fast | Lock | Check | In_ (k : nat) | Unlock | Chain | St1 (force : bool) | St2 (force : bool) | Pick (n : option nat) | Got (id : nat).
(** The state (sctk_global_base_init), the mutex (394), the work done so far, the threads. *)
Record ist := mkIst { gstate : nat; glock : option nat; glog : list doing; at_ : nat -> place }.
(** Static initialisation (sctk_alloc_posix.c 74-89, 394). *)
Definition ist0 : ist := mkIst 0 None [] (fun _ => Out).
(** A thread goes on (no code of its own in /repo: the program counter). *)
Definition move (s : ist) (t : nat) (p : place) : ist := mkIst (gstate s) (glock s) (glog s) (fun x => if Nat.eqb x t then p else at_ s x).
(** The mutex is taken (sctk_alloc_posix.c 402) or given back (476). *)
Definition with_lock (s : ist) (l : option nat) : ist := mkIst (gstate s) l (glog s) (at_ s).
(** Equality of pieces of work (no code of its own in /repo). *)
Definition doing_eqb (a b : doing) : bool :=
  match a, b with
  | ConfigDefaults, ConfigDefaults | EggChain, EggChain | Topology, Topology | ConfigUser, ConfigUser | EggSource, EggSource | OnNode, OnNode => true
  | Source i, Source j => Nat.eqb i j
  | _, _ => false
  end.
(** Has the piece of work been done (no code of its own in /repo: the contents of the variables it sets). *)
Definition was_done (s : ist) (d : doing) : bool := existsb (doing_eqb d) (glog s).
(** One instruction of the section.  A structure of a source is allocated in the egg. (sctk_alloc_posix.c 421-473, 198-280.) *)
Definition one_instr (m : machine) (i : instr) (s : ist) : res ist :=
  match i with
  | Do (Source id) => if was_done s EggChain then Ok (mkIst (gstate s) (glock s) (glog s ++ [Source id]) (at_ s)) else UB
  | Do d => Ok (mkIst (gstate s) (glock s) (glog s ++ [d]) (at_ s))
  | State v => Ok (mkIst v (glock s) (glog s) (at_ s))
  | Need v => if Nat.eqb (gstate s) v then Ok s else Abort
  | NeedNodes => if nodes m <=? max_node m then Ok s else Abort
  end.
(** A thread makes its first call ([Begin]), asks for the source of its node again ([Ask], sctk_alloc_posix_numa_migrate_chain 950), or goes on
    ([Go]; [o]: what sctk_alloc_init_on_numa_node would answer, [None] for -1; [r]: what the round robin would answer). *)
Inductive iact := Begin (t : nat) | Ask (t : nat) | Go (t : nat) (o : option nat) (r : nat).
(** One step of a thread: sctk_alloc_posix.c 299-368, 392-477, 483-515. *)
Definition istep (m : machine) (a : iact) (s : ist) : res ist :=
  match a with
  | Begin t => match at_ s t with Out => Ok (move s t Fast) | _ => Ok s end
  | Ask t => match at_ s t with Got _ => Ok (move s t (if hw m then St1 false else Pick (Some 0))) | _ => Ok s end
  | Go t o r =>
      match at_ s t with
      | Out | Got _ => Ok s
      | Fast => Ok (move s t (if 2 <=? gstate s then Chain else Lock))                                        (* 398-399 *)
      | Lock => match glock s with None => Ok (with_lock (move s t Check) (Some t)) | Some _ => Ok s end      (* 402 *)
      | Check => Ok (move s t (if Nat.eqb (gstate s) 0 then In_ 0 else Unlock))                               (* 405 *)
      | In_ k =>
          match nth_error (section m) k with
          | Some i => rbind (one_instr m i s) (fun s => Ok (move s t (In_ (S k))))
          | None => Ok (move s t Unlock)
          end
      | Unlock => Ok (with_lock (move s t Chain) None)                                                        (* 476 *)
      | Chain => if was_done s EggChain then Ok (move s t (if hw m then St1 true else Pick (Some 0))) else UB (* 499-507; 339 *)
      | St1 f => Ok (move s t (if Nat.eqb (gstate s) 1 then Pick (Some (max_node m)) else St2 f))             (* 331 *)
      | St2 f =>                                                                                              (* 332-337 *)
          Ok (move s t (if Nat.eqb (gstate s) 2 then Pick (Some (max_node m))
                        else if (negb (Nat.eqb (nodes m) 0) && numa m) && negb f then Pick o else Pick (Some (max_node m))))
      | Pick n =>                                                                                             (* 342-367 *)
          if hw m && robin m && Nat.eqb (nodes m) 0 then UB                                                   (* 310: modulo 0 *)
          else
            let n := if hw m && robin m then Some r else n in                                                 (* 344: the first condition is always true *)
            let id := match n with None => max_node m | Some i => i end in
            if id <=? max_node m then (if was_done s (Source id) then Ok (move s t (Got id)) else UB) else Abort
      end
  end.
