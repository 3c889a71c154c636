(** Light memory sources used by one thread at a time: the sources with several threads (LightConcModel.v) seen as those of LightModel.v, for C71. *)
From Verif Require Import Res Mem LightModel LightSpec LightConcModel.
From Coq Require Import ZArith List Bool.
Import ListNotations.
Open Scope Z_scope.

(** The list of the cache read in memory from address [p]: address of the next one at 0, size at 8. *)
Fixpoint cached (m : mem) (p : Z) (l : list (Z * Z)) : Prop :=
  match l with [] => p = 0 | x :: l => p = fst x /\ p <> 0 /\ ld m (p + 8) 8 = snd x /\ cached m (ld m p 8) l end.
(** The segments in use that source [j] gave. *)
Definition given (j : nat) (l : list (Z * Z * nat)) : list (Z * Z) := map fst (filter (fun y => Nat.eqb (snd y) j) l).
(** Source [j] of [c] has the fields of [s], the lock is free, the segments in use are [out]. *)
Record agree (s : ls) (out : list (Z * Z)) (j : nat) (c : lcst) : Prop := {
  ag_cache : cached (lmem s) (lcache s) (cq (srcs c j));
  ag_size : csz (srcs c j) = lsz s;
  ag_count : ccnt (srcs c j) = lcnt s;
  ag_lock : clk (srcs c j) = None;
  ag_maps : forall x, In x (lmap s) -> In x (maps c);
  ag_out : given j (held c) = out }.
(** All sources agree; they have different mappings. *)
Definition agrees (ss : nat -> ls) (outs : nat -> list (Z * Z)) (c : lcst) : Prop :=
  (forall j, agree (ss j) (outs j) j c) /\
  forall i j x y, i <> j -> In x (lmap (ss i)) -> In y (lmap (ss j)) -> disj x y.

(** A call: a request ([gr]: what mmap would answer), the return of segment [(b, n)]; a write by the holder of a segment is no call of the source. *)
Inductive lcall := KReq (n : Z) (gr : option Z) | KFree (b n : Z) | KWrite (x v : Z).
Definition op_of (a : lcall) : lop := match a with KReq n gr => LReq n gr | KFree b _ => LFree b | KWrite x v => LWrite x v end.
(** The call is one that C33 is about, and mmap returns memory that nobody has. *)
Definition kvalid (g : lcfg) (s : ls) (out : list (Z * Z)) (c : lcst) (a : lcall) : Prop :=
  lvalid g false s out (op_of a) /\
  match a with KReq n (Some b) => forall x, In x (maps c) -> disj (b, n) x | KFree b n => In (b, n) out | _ => True end.
(** Thread [t] makes the call on source [j], then [k] accesses; nobody else runs. *)
Definition kstart (t j : nat) (a : lcall) : list cact :=
  match a with KReq n _ => [AReq t j n] | KFree b n => [AFree t j (b, n)] | KWrite _ _ => [] end.
Definition kgrant (a : lcall) : Z := match a with KReq _ (Some b) => b | _ => 0 end.
Definition ksolo (t j : nat) (a : lcall) (k : nat) : list cact := kstart t j a ++ repeat (AGo t (kgrant a)) k.
Definition put {A} (f : nat -> A) (j : nat) (x : A) : nat -> A := fun i => if Nat.eqb i j then x else f i.

(** Calls one after another on [S] sources with LightModel.v alone. *)
Inductive serial (g : lcfg) (S : nat) : (nat -> ls) -> (nat -> list (Z * Z)) -> Prop :=
| serial_0 m : serial g S (fun _ => ls0 m) (fun _ => [])
| serial_s ss outs j a r s' : serial g S ss outs -> (j < S)%nat -> lvalid g false (ss j) (outs j) (op_of a) ->
    match a with KReq n (Some b) => forall i, fresh (ss i) b n | KFree b n => In (b, n) (outs j) | _ => True end ->
    lightstep g (op_of a) (ss j) = Ok (r, s') -> serial g S (put ss j s') (put outs j (lafter (outs j) (op_of a) r)).
