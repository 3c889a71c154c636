(** Start-up of the library with the store buffers of x86: the same code as InitModel.v (sctk_alloc_posix.c 198-280, 299-368, 392-477, 483-515), where the
    stores of a thread wait in its buffer.

    A thread reads its own waiting stores, the others read the memory.  Taking the mutex of base_init (402) drains the buffer; giving it back (476) is a
    store that waits like the others (true of the spinlock of sctk_alloc_lock.h; a pthread mutex drains the buffer, which is one of the executions here).
    Simplification: the stores of one piece of initialisation are one store, visible when the last of them is. *)
From Verif Require Import Res InitModel.
From Coq Require Import List Bool Arith.
Import ListNotations.

(** A waiting store: [sctk_global_base_init = v]; the result of a piece of work; the word of the mutex. (sctk_alloc_posix.c 440, 463, 279; 421-460; 476.) *)
Inductive wr := WState (v : nat) | WDo (d : doing) | WFree.
(** As InitModel.ist, with a buffer for each thread (the buffers are those of the processor). *)
Record tst := mkT { t_state : nat; t_log : list doing; t_lock : option nat; t_buf : nat -> list wr; t_at : nat -> place }.
(** Static initialisation (sctk_alloc_posix.c 74-89, 394); the buffers are empty. *)
Definition t0 : tst := mkT 0 [] None (fun _ => []) (fun _ => Out).
(** A store takes effect (no code of its own in /repo: memory of x86). *)
Definition apply (x : nat * list doing) (w : wr) : nat * list doing :=
  match w with WState v => (v, snd x) | WDo d => (fst x, snd x ++ [d]) | WFree => x end.
(** What thread [t] reads. (No code of its own in /repo: loads of x86.) *)
Definition view (s : tst) (t : nat) : nat * list doing := fold_left apply (t_buf s t) (t_state s, t_log s).
(** As InitModel.was_done, for a thread. *)
Definition seen (x : nat * list doing) (d : doing) : bool := existsb (doing_eqb d) (snd x).
(** A thread goes on (no code of its own in /repo: the program counter). *)
Definition t_move (s : tst) (t : nat) (p : place) : tst := mkT (t_state s) (t_log s) (t_lock s) (t_buf s) (fun x => if Nat.eqb x t then p else t_at s x).
(** Stores enter the buffer of the thread (no code of its own in /repo: store buffers of x86). *)
Definition t_push (s : tst) (t : nat) (l : list wr) : tst :=
  mkT (t_state s) (t_log s) (t_lock s) (fun x => if Nat.eqb x t then t_buf s x ++ l else t_buf s x) (t_at s).
(** The mutex is taken (sctk_alloc_posix.c 402). *)
Definition t_take (s : tst) (t : nat) : tst := mkT (t_state s) (t_log s) (Some t) (t_buf s) (t_at s).
(** One instruction of the critical section (InitModel.section): the stores it issues. (sctk_alloc_posix.c 421-473, 198-280.) *)
Definition issue (m : machine) (i : instr) (x : nat * list doing) : res (list wr) :=
  match i with
  | Do (Source id) => if seen x EggChain then Ok [WDo (Source id)] else UB
  | Do d => Ok [WDo d]
  | State v => Ok [WState v]
  | Need v => if Nat.eqb (fst x) v then Ok [] else Abort
  | NeedNodes => if nodes m <=? max_node m then Ok [] else Abort
  end.
(** One step outside the critical section; the lines are those of InitModel.istep. *)
Definition local (m : machine) (o : option nat) (r : nat) (x : nat * list doing) (p : place) : res place :=
  match p with
  | Fast => Ok (if 2 <=? fst x then Chain else Lock)                                                          (* 398-399 *)
  | Chain => if seen x EggChain then Ok (if hw m then St1 true else Pick (Some 0)) else UB                    (* 499-507; 339 *)
  | St1 f => Ok (if Nat.eqb (fst x) 1 then Pick (Some (max_node m)) else St2 f)                               (* 331 *)
  | St2 f => Ok (if Nat.eqb (fst x) 2 then Pick (Some (max_node m))                                           (* 332-337 *)
                 else if (negb (Nat.eqb (nodes m) 0) && numa m) && negb f then Pick o else Pick (Some (max_node m)))
  | Pick n =>                                                                                                 (* 342-367 *)
      if hw m && robin m && Nat.eqb (nodes m) 0 then UB
      else
        let n := if hw m && robin m then Some r else n in
        let id := match n with None => max_node m | Some i => i end in
        if id <=? max_node m then (if seen x (Source id) then Ok (Got id) else UB) else Abort
  | q => Ok q
  end.
(** The [i]-th waiting store of [t] reaches the memory: the oldest one if [fifo] (x86), else any one that no older store to the same place precedes. Stores to the same variable (no code of its own in /repo). *)
Definition same_place (a b : wr) : bool :=
  match a, b with WState _, WState _ => true | WDo d, WDo e => doing_eqb d e | WFree, WFree => true | _, _ => false end.
(** A store leaves the buffer (no code of its own in /repo: store buffers of x86). *)
Definition t_flush (fifo : bool) (s : tst) (t i : nat) : tst :=
  match nth_error (t_buf s t) i with
  | Some w =>
      if (if fifo then Nat.eqb i 0 else negb (existsb (same_place w) (firstn i (t_buf s t)))) then
        let x := apply (t_state s, t_log s) w in
        mkT (fst x) (snd x) (match w with WFree => None | _ => t_lock s end)
            (fun u => if Nat.eqb u t then firstn i (t_buf s t) ++ skipn (S i) (t_buf s t) else t_buf s u) (t_at s)
      else s
  | None => s
  end.
(** A first call, a new question for a source, the next step of a thread, a store that reaches memory (sctk_alloc_posix.c 299-368, 392-477, 483-515, 950). *)
Inductive tact := TBegin (t : nat) | TAsk (t : nat) | TGo (t : nat) (o : option nat) (r : nat) | TFlush (t i : nat).
(** One of [tact]: sctk_alloc_posix.c 299-368, 392-477, 483-515. *)
Definition tstep (fifo : bool) (m : machine) (a : tact) (s : tst) : res tst :=
  match a with
  | TBegin t => match t_at s t with Out => Ok (t_move s t Fast) | _ => Ok s end
  | TAsk t => match t_at s t with Got _ => Ok (t_move s t (if hw m then St1 false else Pick (Some 0))) | _ => Ok s end
  | TFlush t i => Ok (t_flush fifo s t i)
  | TGo t o r =>
      match t_at s t with
      | Lock => match t_lock s, t_buf s t with None, [] => Ok (t_take (t_move s t Check) t) | _, _ => Ok s end   (* 402 *)
      | Check => Ok (t_move s t (if Nat.eqb (fst (view s t)) 0 then In_ 0 else Unlock))                       (* 405 *)
      | In_ k =>
          match nth_error (section m) k with
          | Some i => rbind (issue m i (view s t)) (fun l => Ok (t_move (t_push s t l) t (In_ (S k))))
          | None => Ok (t_move s t Unlock)
          end
      | Unlock => Ok (t_move (t_push s t [WFree]) t Chain)                                                    (* 476 *)
      | p => rbind (local m o r (view s t) p) (fun q => Ok (t_move s t q))
      end
  end.
