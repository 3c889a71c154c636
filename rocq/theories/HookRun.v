(** Execution of concrete histories with hooks. *)
From Verif Require Import Word Res Mem SizeClassModel ChainModel ChainSpec ChainRun HookModel HookSpec.
From Coq Require Import ZArith List Bool Lia.
Import ListNotations.
Open Scope Z_scope.

Fixpoint hrun_from (k : hooks) (fuel : nat) (g : cfg) (s : st) (o : obs) (cs : list op) (L : list hev) : option (st * obs * list hev) :=
  match cs with
  | [] => Some (s, o, L)
  | c :: cs' =>
      if validb g s o c && (held o + extra g c <? Z.of_nat fuel) then
        match step_h k fuel g c s with
        | Ok (r, s', l) => hrun_from k fuel g (clear_ev s') (next o c r (sevs s')) cs' (l ++ L)
        | _ => None
        end
      else None
  end.
Definition hrun (k : hooks) (fuel : nat) (g : cfg) (cs : list op) : option (st * obs * list hev) :=
  if wf_cfgb g then
    match base_init g (init_state g (fun _ => 0)) with
    | Ok (tt, s) => hrun_from k fuel g s (mkObs [] [] []) cs []
    | _ => None
    end
  else None.
Lemma hrun_from_reach k fuel g cs : forall s o L s' o' L', hreach g k s o L -> hrun_from k fuel g s o cs L = Some (s', o', L') -> hreach g k s' o' L'.
Proof.
  induction cs as [|c cs IH]; intros s o L s' o' L' R E; cbn [hrun_from] in E.
  - injection E as <- <- <-. exact R.
  - destruct (validb g s o c) eqn:V; [|discriminate]. destruct (Z.ltb_spec (held o + extra g c) (Z.of_nat fuel)) as [HF|]; [|discriminate]. cbn [andb] in E.
    destruct (step_h k fuel g c s) as [[[r s1] l]| | |] eqn:X; try discriminate.
    eapply IH; [|exact E]. eapply hreach_step; [exact R|apply validb_ok; exact V|exact HF|exact X].
Qed.
Lemma hrun_reach k fuel g cs s o L : hrun k fuel g cs = Some (s, o, L) -> hreach g k s o L.
Proof.
  unfold hrun. destruct (wf_cfgb g) eqn:WF; [|discriminate]. destruct (base_init g (init_state g (fun _ => 0))) as [[[] s0]| | |] eqn:E; try discriminate.
  intros X. eapply hrun_from_reach; [|exact X]. eapply hreach_init; [|exact E]. unfold wf_cfgb in WF. unfold wf_cfg. lia.
Qed.
Definition hfin k fuel g cs : st * obs * list hev := match hrun k fuel g cs with Some x => x | None => (st_nil, mkObs [] [] [], []) end.
Definition hruns k fuel g cs : bool := match hrun k fuel g cs with Some _ => true | None => false end.
Lemma hfin_reach k fuel g cs : hruns k fuel g cs = true ->
  hreach g k (fst (fst (hfin k fuel g cs))) (snd (fst (hfin k fuel g cs))) (snd (hfin k fuel g cs)).
Proof. unfold hruns, hfin. destruct (hrun k fuel g cs) as [[[s o] L]|] eqn:E; [|discriminate]. intros _. exact (hrun_reach _ _ _ _ _ _ _ E). Qed.

(** All the hooks but the one of flushes. *)
Definition kall : hooks := mkHooks true true false true true true true true.
(** A chain of its own memory: two blocks, a reallocation, a remote free, its collection; a chain with a source: a block, a
    huge block, and the huge block given back. *)
Definition HU_ops : list op := [ORefill 4194304 4096; OAlloc 0 100 None; OAlloc 64 100 None; ORealloc 0 4194352 300 None; OAlloc 0 40 None; ORemote 4194352; OPurge].
Definition HFU : nat := Z.to_nat 10000.
Definition HS_ops : list op := [OAlloc 0 100 (Some 4194304); OAlloc 0 3000000 (Some 8388608); OFree 8388656].
Definition HFS : nat := Z.to_nat 9000000.
