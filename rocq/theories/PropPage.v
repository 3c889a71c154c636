(** C79: the page map read by several threads. *)
From Verif Require Import Res PageModel PageSpec PageProofs.
From Coq Require Import List Bool Arith.
Import ListNotations.

(** In every execution the table a call gets, while it is used and when it is done, is the one of its own pages. *)
Theorem C79_read_right pm s t a n l : preach pm s -> p_at s t = Free (Some (a, n, l)) -> l = entries pm a n.
Proof. exact (read_right pm s t a n l). Qed.
Print Assumptions C79_read_right.
Theorem C79_use_right pm s t u a n l : preach pm s -> p_at s t = Use u a n (Some l) -> l = entries pm a n.
Proof. exact (use_right pm s t u a n l). Qed.
Print Assumptions C79_use_right.
(** A read that runs alone, from any reachable state with the file open, ends with that table. *)
Theorem C79_read_done pm s t a n f l : preach pm s -> p_at s t = Free l -> p_lock s = None -> p_fp s = FOpen f ->
  exists s', pplay pm [PRead t a n; PGo t true; PGo t true; PGo t true; PGo t true; PGo t true; PGo t true] s = Ok s' /\ p_at s' t = Free (Some (a, n, entries pm a n)) /\ p_lock s' = None.
Proof. exact (read_done pm s t a n f l). Qed.
Print Assumptions C79_read_done.
(** One thread at a time is in the parts under the lock; at most one file is open. *)
Theorem C79_one_user pm s t u : preach pm s -> holding (p_at s t) -> holding (p_at s u) -> t = u.
Proof. exact (one_user pm s t u). Qed.
Print Assumptions C79_one_user.
Theorem C79_one_file pm s f g : preach pm s -> p_live s f = true -> p_live s g = true -> f = g.
Proof. exact (one_file pm s f g). Qed.
Print Assumptions C79_one_file.
(** The function called at exit closes an open file, never the marker 0x1 nor a closed file; when every one has run no file is open. *)
Theorem C79_closed_once pm s t b : preach pm s -> p_at s t = XTest -> exists f, p_live s f = true /\ pstep pm (PGo t b) s = Ok (pgo (pclose s f) t XUnlock).
Proof. exact (closed_once pm s t b). Qed.
Print Assumptions C79_closed_once.
Theorem C79_closed_end pm s : preach pm s -> p_regs s = 0 -> (forall t, p_at s t <> XLock /\ p_at s t <> XTest) -> forall f, p_live s f = false.
Proof. exact (closed_end pm s). Qed.
Print Assumptions C79_closed_end.
(** In a program where each thread initialises before it reads, until the process ends, no step faults, and only a short read aborts. *)
Theorem C79_no_fault pm s x : pgood pm s -> p_exit s = false -> init_first s x -> pstep pm x s <> UB /\ pstep pm x s <> OutOfFuel /\ (pstep pm x s = Abort -> exists t, x = PGo t false).
Proof. exact (good_no_fault pm s x). Qed.
Print Assumptions C79_no_fault.
(** But a thread that is reading when the process ends uses a NULL file: for every page map and every range. *)
Theorem C79_exit_refuted pm a n : exists s, pgood pm s /\ p_init s 1 = true /\ p_at s 1 = RSeek Cumul a n /\ pstep pm (PGo 1 true) s = UB.
Proof. exact (exit_bad pm a n). Qed.
Print Assumptions C79_exit_refuted.
(** print_detail does not initialise: as the first call of a process it uses a NULL file. *)
Theorem C79_detail_refuted pm a n : exists s, preach pm s /\ p_exit s = false /\ p_at s 0 = RSeek Detail a n /\ pstep pm (PGo 0 true) s = UB.
Proof. exact (detail_bad pm a n). Qed.
Print Assumptions C79_detail_refuted.
(** And when fopen fails in another thread between its test and that of read_pagemap, it reads a NULL table. *)
Theorem C79_detail_race_refuted pm a n : exists s, preach pm s /\ p_exit s = false /\ p_at s 1 = Use Detail a (S n) None /\ pstep pm (PGo 1 true) s = UB.
Proof. exact (detail_race pm a n). Qed.
Print Assumptions C79_detail_race_refuted.

(** Two threads both find the variable NULL; one opens, the other finds the file open; both read, their steps mixed; the file is closed at the end. *)
Definition two_readers : list pact :=
  [PInit 0; PInit 1; PGo 0 true; PGo 1 true; PGo 1 true; PGo 0 true; PGo 1 true; PGo 1 true; PGo 0 true; PGo 0 true; PGo 0 true;
   PRead 0 3 2; PDetail 1 7 3; PGo 1 true; PGo 0 true; PGo 1 true; PGo 1 true; PGo 0 true; PGo 1 true; PGo 1 true; PGo 1 true; PGo 0 true; PGo 0 true; PGo 1 true; PGo 0 true; PGo 0 true; PGo 0 true].
Lemma two_good : good_play (fun i => i * i) two_readers p0.
Proof. vm_compute. tauto. Qed.
Example C79_met : exists s, pgood (fun i => i * i) s /\ p_exit s = false /\ p_fp s = FOpen 0 /\ p_at s 0 = Free (Some (3, 2, [9; 16])) /\ p_at s 1 = Free (Some (7, 3, [49; 64; 81])).
Proof.
  assert (E : match pplay (fun i => i * i) two_readers p0 with Ok s => Some (p_exit s, p_fp s, p_at s 0, p_at s 1) | _ => None end = Some (false, FOpen 0, Free (Some (3, 2, [9; 16])), Free (Some (7, 3, [49; 64; 81])))) by (vm_compute; reflexivity).
  destruct (pplay (fun i => i * i) two_readers p0) as [s| | |] eqn:P; try discriminate E. exists s. split; [exact (play_good _ _ p0 s (pgood_0 _) two_good P)|]. injection E as A B C D. repeat split; assumption.
Qed.
Example C79_met_closed : exists s, preach (fun i => i) s /\ p_exit s = true /\ p_regs s = 0 /\ p_fp s = FNull /\ p_live s 0 = false.
Proof.
  assert (E : match pplay (fun i => i) (open_by 0 ++ [PExit 1; PGo 1 true; PGo 1 true; PGo 1 true]) p0 with Ok s => Some (p_exit s, p_regs s, p_fp s, p_live s 0) | _ => None end = Some (true, 0, FNull, false)) by (vm_compute; reflexivity).
  destruct (pplay (fun i => i) (open_by 0 ++ [PExit 1; PGo 1 true; PGo 1 true; PGo 1 true]) p0) as [s| | |] eqn:P; try discriminate E. exists s. split; [exact (play_reach _ _ p0 s (preach_0 _) P)|]. injection E as A B C D. repeat split; assumption.
Qed.
