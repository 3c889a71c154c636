(** What a program can conclude from the events, and runs with hooks. *)
From Verif Require Import Word Res Mem SizeClassModel ChainModel ChainSpec HookModel.
From Coq Require Import ZArith List Bool.
Import ListNotations.
Open Scope Z_scope.

(** The blocks in use according to the events (latest first): announced by an allocation, not yet by a free. *)
Fixpoint told_blocks (l : list hev) : list Z :=
  match l with
  | [] => []
  | e :: l' =>
      match e with
      | HAlloc _ p _ _ | HHugeAlloc _ p _ _ => p :: told_blocks l'
      | HFree p _ | HHugeFree p _ => filter (fun q => negb (q =? p)) (told_blocks l')
      | _ => told_blocks l'
      end
  end.
(** The segments held according to the events; a NULL segment is a refusal. *)
Fixpoint told_segs (l : list hev) : list Z :=
  match l with
  | [] => []
  | e :: l' =>
      match e with
      | HAdd b => if b =? 0 then told_segs l' else b :: told_segs l'
      | HDrop b => filter (fun q => negb (q =? b)) (told_segs l')
      | _ => told_segs l'
      end
  end.

(** The size announced for the block at [p], and the size announced as requested. *)
Definition size_told (l : list hev) (p z : Z) : Prop :=
  exists e, In e l /\ match e with HAlloc _ q y _ | HHugeAlloc _ q y _ | HFree q y | HHugeFree q y => q = p /\ y = z | _ => False end.
Definition req_told (l : list hev) (z : Z) : Prop :=
  exists e, In e l /\ match e with HAlloc q _ _ _ | HHugeAlloc q _ _ _ => q = z | _ => False end.
(** The four hooks about blocks are installed. *)
Definition all_on (k : hooks) : Prop := k_alloc k = true /\ k_free k = true /\ k_halloc k = true /\ k_hfree k = true.
(** Two states that nothing distinguishes. *)
Definition same (s t : st) : Prop :=
  (forall x, smem s x = smem t x) /\ srng s = srng t /\ sbase s = sbase t /\ send s = send t /\ scnt s = scnt t /\
  rqh s = rqh t /\ rqt s = rqt t /\ sevs s = sevs t.

(** States after any history of valid calls with the hooks [k] installed, with all the events so far. *)
Inductive hreach (g : cfg) (k : hooks) : st -> obs -> list hev -> Prop :=
| hreach_init m s : wf_cfg g -> base_init g (init_state g m) = Ok (tt, s) -> hreach g k s (mkObs [] [] []) []
| hreach_step s o L fuel c r s' l :
    hreach g k s o L -> valid g s o c -> fuel_ok g o c fuel -> step_h k fuel g c s = Ok (r, s', l) ->
    hreach g k (clear_ev s') (next o c r (sevs s')) (l ++ L).

(** The two calls that the hooks break: a huge request refused by the source while the hook of huge allocations is
    installed; collecting remote frees while the hook of flushes is installed. *)
Definition broken (k : hooks) (g : cfg) (o : obs) (c : op) : Prop :=
  match c with
  | OAlloc d n None | ORealloc d _ n None => k_halloc k = true /\ csrc g = true /\ huge d n /\ n <> 0
  | OPurge => k_flush k = true /\ pend o <> []
  | _ => False
  end.
