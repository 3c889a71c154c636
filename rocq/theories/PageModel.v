(** The file /proc/self/pagemap read by several threads: sctk_alloc_numa_stat.c 38-88 (opening, closing at exit), 121-141 ([numa_stat_init]),
    193-234 ([read_pagemap]), 239-274 and 314-350 (its two callers).  One access to the shared variable or to the file per step; any number of threads.

    Simplifications: the assertions (assert) are off, fseek succeeds (218-222 end the process otherwise), calloc (211) is left out (C61), the content of
    the page map does not change while it is read.  The lock is one that excludes (C63). *)
From Verif Require Import Res.
From Coq Require Import List Bool Arith.
Import ListNotations.

(** sctk_alloc_glob_pagemap_fp (38): NULL, SCTK_ALLOC_PAGEMAP_NOT_AVAIL (44), or the [f]-th file opened. *)
Inductive fptr := FNull | FNone | FOpen (f : nat).
(** Who calls read_pagemap: numa_stat_cumul (253), print_detail (337). *)
Inductive user := Cumul | Detail.
(** Where a thread is: outside, with the table of its last read; in init; in open_pagemap; in print_detail; in read_pagemap of [n] pages from
    page [a]; using the table; in the function called at exit. (Lines of each place: at [pstep].) *)
Inductive place :=
| Free (last : option (nat * nat * list nat))
| ITest
| OLock | OTest | OUnlock
| DTest (a n : nat)
| RTest (u : user) (a n : nat) | RLock (u : user) (a n : nat) | RSeek (u : user) (a n : nat) | RRead (u : user) (a n : nat) | RUnlock (u : user) (a n : nat) (l : list nat)
| Use (u : user) (a n : nat) (l : option (list nat))
| XLock | XTest | XUnlock.
(** [p_fp]: the variable; [p_next]: files opened so far; [p_live f]: file [f] is open; [p_pos f]: its position, in entries; [p_regs]: calls of atexit
    (67) whose function has not begun; [p_init t]: thread [t] has initialised a statistic. *)
Record pst := mkP { p_fp : fptr; p_lock : option nat; p_next : nat; p_live : nat -> bool; p_pos : nat -> nat; p_regs : nat; p_exit : bool; p_init : nat -> bool; p_at : nat -> place }.
(** sctk_alloc_numa_stat.c 38-40: the variable and the lock before the first call. *)
Definition p0 : pst := mkP FNull None 0 (fun _ => false) (fun _ => 0) 0 false (fun _ => false) (fun _ => Free None).
(** Update of a function (no code of its own in /repo). *)
Definition set {A} (f : nat -> A) (k : nat) (v : A) : nat -> A := fun x => if Nat.eqb x k then v else f x.
(** A thread goes on (no code of its own in /repo: the program counter). *)
Definition pgo (s : pst) (t : nat) (p : place) : pst := mkP (p_fp s) (p_lock s) (p_next s) (p_live s) (p_pos s) (p_regs s) (p_exit s) (p_init s) (set (p_at s) t p).
(** The lock (40) is taken or given back: 54, 72, 78, 87, 214, 231. *)
Definition plock (s : pst) (l : option nat) : pst := mkP (p_fp s) l (p_next s) (p_live s) (p_pos s) (p_regs s) (p_exit s) (p_init s) (p_at s).
(** A statistic of the thread is initialised: 121-141 (ghost). *)
Definition pready (s : pst) (t : nat) : pst := mkP (p_fp s) (p_lock s) (p_next s) (p_live s) (p_pos s) (p_regs s) (p_exit s) (set (p_init s) t true) (p_at s).
(** fopen (59) that succeeds, with atexit (67); that fails (64). *)
Definition popen (s : pst) : pst :=
  mkP (FOpen (p_next s)) (p_lock s) (S (p_next s)) (set (p_live s) (p_next s) true) (set (p_pos s) (p_next s) 0) (S (p_regs s)) (p_exit s) (p_init s) (p_at s).
(** fopen (59) fails: 64. *)
Definition pnone (s : pst) : pst := mkP FNone (p_lock s) (p_next s) (p_live s) (p_pos s) (p_regs s) (p_exit s) (p_init s) (p_at s).
(** fclose (82-83). *)
Definition pclose (s : pst) (f : nat) : pst := mkP FNull (p_lock s) (p_next s) (set (p_live s) f false) (p_pos s) (p_regs s) (p_exit s) (p_init s) (p_at s).
(** fseek (217) and fread (225) move the position of the file. *)
Definition pseek (s : pst) (f k : nat) : pst := mkP (p_fp s) (p_lock s) (p_next s) (p_live s) (set (p_pos s) f k) (p_regs s) (p_exit s) (p_init s) (p_at s).
(** exit calls one of the functions given to atexit (67). *)
Definition pleave (s : pst) : pst := mkP (p_fp s) (p_lock s) (p_next s) (p_live s) (p_pos s) (pred (p_regs s)) true (p_init s) (p_at s).

(** Calls begin with [PInit], [PRead], [PDetail]; [PExit]: the process ends and thread [t] runs one function given to atexit; [PGo t b]: the next step
    of [t], with [b] the answer of fopen (59) or of fread (225: all the entries are read). *)
Inductive pact := PInit (t : nat) | PRead (t a n : nat) | PDetail (t a n : nat) | PExit (t : nat) | PGo (t : nat) (b : bool).
(** [pm]: the entries of the page map. *)
Definition pstep (pm : nat -> nat) (x : pact) (s : pst) : res pst :=
  match x with
  | PInit t => match p_at s t with Free _ => Ok (pgo s t ITest) | _ => Ok s end
  | PRead t a n => match p_at s t with Free _ => Ok (pgo s t (RTest Cumul a n)) | _ => Ok s end
  | PDetail t a n => match p_at s t with Free _ => Ok (pgo s t (DTest a n)) | _ => Ok s end
  | PExit t => match p_at s t, p_regs s with Free _, S _ => Ok (pgo (pleave s) t XLock) | _, _ => Ok s end
  | PGo t b =>
      match p_at s t with
      | Free _ => Ok s
      | ITest => match p_fp s with FNull => Ok (pgo s t OLock) | _ => Ok (pgo (pready s t) t (Free None)) end                (* 127 *)
      | OLock => match p_lock s with None => Ok (pgo (plock s (Some t)) t OTest) | Some _ => Ok s end                        (* 54 *)
      | OTest => match p_fp s with FNull => Ok (pgo (if b then popen s else pnone s) t OUnlock) | _ => Ok (pgo s t OUnlock) end   (* 57-68 *)
      | OUnlock => Ok (pgo (plock (pready s t) None) t (Free None))                                                          (* 72 *)
      | DTest a n => match p_fp s with FNone => Ok (pgo s t (Free None)) | _ => Ok (pgo s t (RTest Detail a n)) end          (* 327-331 *)
      | RTest u a n => match p_fp s with FNone => Ok (pgo s t (Use u a n None)) | _ => Ok (pgo s t (RLock u a n)) end        (* 206-207 *)
      | RLock u a n => match p_lock s with None => Ok (pgo (plock s (Some t)) t (RSeek u a n)) | Some _ => Ok s end          (* 214 *)
      | RSeek u a n =>                                                                                                       (* 217 *)
          match p_fp s with FOpen f => if p_live s f then Ok (pgo (pseek s f a) t (RRead u a n)) else UB | _ => UB end
      | RRead u a n =>                                                                                                       (* 225-228 *)
          match p_fp s with
          | FOpen f => if p_live s f then (if b then Ok (pgo (pseek s f (p_pos s f + n)) t (RUnlock u a n (map pm (seq (p_pos s f) n)))) else Abort) else UB
          | _ => UB
          end
      | RUnlock u a n l => Ok (pgo (plock s None) t (Use u a n (Some l)))                                                    (* 231 *)
      | Use u a n l =>                                                                                                       (* 256-273; 340-349 *)
          match u, l with
          | Detail, None => if Nat.eqb n 0 then Ok (pgo s t (Free None)) else UB
          | _, None => Ok (pgo s t (Free None))
          | _, Some l => Ok (pgo s t (Free (Some (a, n, l))))
          end
      | XLock => match p_lock s with None => Ok (pgo (plock s (Some t)) t XTest) | Some _ => Ok s end                        (* 78 *)
      | XTest =>                                                                                                             (* 81-84 *)
          match p_fp s with FNull => Ok (pgo s t XUnlock) | FNone => UB | FOpen f => if p_live s f then Ok (pgo (pclose s f) t XUnlock) else UB end
      | XUnlock => Ok (pgo (plock s None) t (Free None))                                                                     (* 87 *)
      end
  end.
