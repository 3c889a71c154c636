(** Executions of several threads on light memory sources, and what is expected. *)
From Verif Require Import Res LightModel LightConcModel.
From Coq Require Import ZArith List Bool.
Import ListNotations.
Open Scope Z_scope.

Definition apart (x y : Z * Z) : Prop := fst x + snd x <= fst y \/ fst y + snd y <= fst x.
(** What threads may do: [N] threads, [S] sources; requests of a positive size; a segment in use is given back once; mmap returns new memory.
    [home]: segments go back to the source they came from. *)
Definition lcok (N S : nat) (home : bool) (s : lcst) (a : cact) : Prop :=
  match a with
  | AReq t j n => (t < N)%nat /\ (j < S)%nat /\ 0 < n
  | AFree t j x => (t < N)%nat /\ (j < S)%nat /\ cat_ s t = PIdle /\ exists h, In (x, h) (held s) /\ (home = true -> h = j)
  | AClean _ _ => False
  | AGo t a => (t < N)%nat /\ forall j n, cat_ s t = PMap j n -> forall x, In x (maps s) -> apart (a, n) x
  end.
Inductive lcreach (g : lcfg) (N S : nat) (home : bool) : lcst -> Prop :=
| lcreach_0 : lcreach g N S home lc0
| lcreach_s s a s' : lcreach g N S home s -> lcok N S home s a -> lcstep g a s = Ok s' -> lcreach g N S home s'.
(** The threads go on with the calls that they are in, nothing else. *)
Inductive lcgo (g : lcfg) (N S : nat) (home : bool) : lcst -> lcst -> Prop :=
| lcgo_0 s : lcgo g N S home s s
| lcgo_s s t a s1 s2 : lcok N S home s (AGo t a) -> lcstep g (AGo t a) s = Ok s1 -> lcgo g N S home s1 s2 -> lcgo g N S home s s2.
(** Runs with any actions, cleanup included. *)
Inductive lcruns (g : lcfg) : lcst -> list cact -> lcst -> Prop :=
| lcruns_0 s : lcruns g s [] s
| lcruns_s s a s1 l s2 : lcstep g a s = Ok s1 -> lcruns g s1 l s2 -> lcruns g s (a :: l) s2.

(** No call is in progress. *)
Definition calm_lc (s : lcst) : Prop := forall t, cat_ s t = PIdle.
(** The segment that a thread has in hand inside a call. *)
Definition hand (p : cplace) : option (Z * Z) :=
  match p with
  | PTook _ x | PDec _ x | PUnl _ _ (Some x) | PCnt _ x | PTest _ x | PFLock _ x | PFLink _ x | PUnmap _ x => Some x
  | _ => None
  end.
(** Who has segment [x]. *)
Inductive where_ := AtHeld | AtCache (j : nat) | AtHand (t : nat).
Definition has (s : lcst) (w : where_) (x : Z * Z) : Prop :=
  match w with
  | AtHeld => In x (map fst (held s))
  | AtCache j => In x (cq (srcs s j))
  | AtHand t => hand (cat_ s t) = Some x
  end.
(** The thread has the lock of source [j]. *)
Definition locked_in (j : nat) (p : cplace) : Prop :=
  match p with PFind i _ | PTook i _ | PDec i _ | PUnl i _ _ | PFLink i _ | PFSize i _ | PFUnl i | PCGo i => i = j | _ => False end.
Definition bytes (l : list (Z * Z)) : Z := fold_right (fun x a => snd x + a) 0 l.
Definition count_home (j : nat) (l : list (Z * Z * nat)) : Z := fold_right (fun x a => (if Nat.eqb (snd x) j then 1 else 0) + a) 0 l.
Definition total (f : nat -> Z) (n : nat) : Z := fold_right (fun i a => f i + a) 0 (seq 0 n).
(** Bytes that thread [t] has decided to put in the cache of [j] and that are not counted there yet. *)
Definition coming (j : nat) (p : cplace) : Z := match p with PFLock i x | PFLink i x | PFSize i x => if Nat.eqb i j then snd x else 0 | _ => 0 end.
