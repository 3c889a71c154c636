(** Histories of a process that creates, uses and destroys persistent memory pools, seen from outside: the pools it holds, and what the creations that
    answered NULL left behind. *)
From Verif Require Import Word Res PmemModel PoolModel.
From Coq Require Import ZArith List Bool.
Import ListNotations.
Open Scope Z_scope.

(** A pool: its descriptor, its address, the size written back to the caller. *)
Record pool := mkPool { pl_desc : Z; pl_base : Z; pl_size : Z }.
(** The page [x] belongs to the pool, if mmap gave it pages. *)
Definition covers (k : Z) (p : pool) (x : Z) : Prop := pl_base p <> MAP_FAILED /\ pl_base p <= x * 2 ^ k < pl_base p + pl_size p.

(** What the system may answer: a fresh descriptor, a number that is not open or -1, whole pages that are not mapped or MAP_FAILED. *)
Definition sys_ok (k size : Z) (w : world) (a : answers) : Prop :=
  0 < a_mem a < 2 ^ 47 /\ ~ In (a_mem a) (wheap w) /\ a_kind a <> KErr /\ (a_fd a = -1 \/ (0 <= a_fd a /\ ~ In (a_fd a) (wfd w))) /\
  (a_map a = MAP_FAILED \/ (0 < a_map a < 2 ^ 47 /\ a_map a mod 2 ^ k = 0 /\
     forall sz x, roundup k size = Ok sz -> a_map a <= x * 2 ^ k < a_map a + sz -> wpage w x = false)).
(** The creation is one of a device that resolves: not supported, but refused cleanly. *)
Definition device (a : answers) : Prop := a_access a = true /\ a_kind a = KChr /\ a_real a = true.
(** A file of a directory was opened. *)
Definition opened (a : answers) : Prop := a_access a = true /\ a_kind a = KDir /\ 0 <= a_fd a.

(** One operation and what an observer notes of it: the pools held, the descriptors and files left behind by failed creations. *)
Inductive lstep (k : Z) : world -> list pool -> list Z -> list Z -> world -> list pool -> list Z -> list Z -> Prop :=
| l_create w P L F a size d sz w' : 0 <= size < 2 ^ 64 -> sys_ok k size w a -> pool_create k a size w = Ok (d, sz, w') -> d <> 0 ->
    lstep k w P L F w' (mkPool d (a_map a) sz :: P) L F
| l_device w P L F a size sz w' : 0 <= size < 2 ^ 64 -> sys_ok k size w a -> pool_create k a size w = Ok (0, sz, w') -> device a -> lstep k w P L F w' P L F
| l_fail_open w P L F a size sz w' : 0 <= size < 2 ^ 64 -> sys_ok k size w a -> pool_create k a size w = Ok (0, sz, w') -> opened a ->
    lstep k w P L F w' P (a_mem a :: L) (a_fd a :: F)
| l_fail w P L F a size sz w' : 0 <= size < 2 ^ 64 -> sys_ok k size w a -> pool_create k a size w = Ok (0, sz, w') -> ~ device a -> ~ opened a ->
    lstep k w P L F w' P (a_mem a :: L) F
| l_malloc w P L F p n r w' : In p P -> 0 <= n < 2 ^ 64 -> pool_malloc (pl_desc p) n w = Ok (r, w') -> lstep k w P L F w' P L F
| l_destroy w P1 p P2 L F n r w' : pl_size p - 2 ^ k < n <= pl_size p -> pool_destroy k (pl_desc p) n w = Ok (r, w') ->
    lstep k w (P1 ++ p :: P2) L F w' (P1 ++ P2) L F.
(** Nothing at the start. *)
Definition nothing : world := mkWo [] (fun _ => mkPd 0 0 0 0) [] (fun _ => false).
Inductive lsteps (k : Z) : world -> list pool -> list Z -> list Z -> world -> list pool -> list Z -> list Z -> Prop :=
| ls_nil w P L F : lsteps k w P L F w P L F
| ls_snoc w P L F w1 P1 L1 F1 w2 P2 L2 F2 : lsteps k w P L F w1 P1 L1 F1 -> lstep k w1 P1 L1 F1 w2 P2 L2 F2 -> lsteps k w P L F w2 P2 L2 F2.
Definition lreach (k : Z) (w : world) (P : list pool) (L F : list Z) : Prop := lsteps k nothing [] [] [] w P L F.
