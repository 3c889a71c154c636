(** Histories for C86. *)
From Verif Require Import Word Res Mem SizeClassModel ChainModel ChainSpec ChainWalk ChainRun MixSpec.
From Coq Require Import ZArith List Bool Lia.
Import ListNotations.
Open Scope Z_scope.

Definition small_callb (c : op) : bool :=
  match c with OAlloc _ _ None | ORealloc _ _ _ None => true | OAlloc _ _ _ | ORealloc _ _ _ _ => false | ORefill _ z => z <=? 1048576 | _ => true end.
Lemma small_callb_ok c : small_callb c = true -> small_call c.
Proof. destruct c as [d n [gr|]|p|h p n [gr|]|b z|x v|p| |m]; cbn; try discriminate; auto. lia. Qed.

Fixpoint mplay (fuel : nat) (g : cfg) (cs : list op) (s : st) (o : obs) : option (st * obs) :=
  match cs with
  | [] => Some (s, o)
  | c :: cs =>
      if validb g s o c && small_callb c then
        match step fuel (with_source g) c s with Ok (r, s') => mplay fuel g cs s' (next o c r (sevs s')) | _ => None end
      else None
  end.
Lemma mplay_ok fuel g cs : forall s o s' o', mixed g s o -> mplay fuel g cs s o = Some (s', o') -> mixed g s' o'.
Proof.
  induction cs as [|c cs IH]; intros s o s' o' H E; cbn [mplay] in E; [injection E as <- <-; exact H|].
  destruct (validb g s o c) eqn:V; [|discriminate]. destruct (small_callb c) eqn:Q; [|discriminate]. cbn [andb] in E.
  destruct (step fuel (with_source g) c s) as [[r s1]| | |] eqn:ES; try discriminate.
  eapply IH; [|exact E]. eapply mixed_step; [exact H|apply validb_ok; exact V|apply small_callb_ok; exact Q|exact ES].
Qed.
Definition mrun (fuel : nat) (g : cfg) (cs : list op) : option (st * obs) :=
  if wf_cfgb g then match base_init g (init_state g (fun _ => 0)) with Ok (tt, s) => mplay fuel g cs s (mkObs [] [] []) | _ => None end else None.
Definition mfin_s fuel g cs : st := match mrun fuel g cs with Some (s, _) => s | None => st_nil end.
Definition mfin_o fuel g cs : obs := match mrun fuel g cs with Some (_, o) => o | None => mkObs [] [] [] end.
Definition mruns fuel g cs : bool := match mrun fuel g cs with Some _ => true | None => false end.
Lemma mfin_ok fuel g cs : mruns fuel g cs = true -> mixed g (mfin_s fuel g cs) (mfin_o fuel g cs).
Proof.
  unfold mruns, mfin_s, mfin_o. destruct (mrun fuel g cs) as [[s o]|] eqn:E; [|discriminate]. intros _. revert E. unfold mrun.
  destruct (wf_cfgb g) eqn:WF; [|discriminate]. destruct (base_init g (init_state g (fun _ => 0))) as [[[] s0]| | |] eqn:E; try discriminate.
  intros H. eapply mplay_ok; [|exact H]. eapply mixed_init; [|exact E]. unfold wf_cfgb in WF. unfold wf_cfg. lia.
Qed.

(** Small buffers: blocks, a refused request of 3 MB, a block moved, one freed remotely. *)
Definition hx : list op := hu ++ [ORefill 2097152 1048576; OAlloc 0 3000000 None; ORealloc 0 1048624 900000 None; ORemote 1049040; OPurge].
(** A buffer of 2 MB with one block; of 2 MB and 48 bytes with a free chunk of 2 MB - 176 between two blocks, or behind
    two blocks; of 2 MB with a block of 1500000 bytes. *)
Definition hw : list op := [ORefill (2 * MB2) MB2; OAlloc 0 100 None].
Definition hf : list op := [ORefill (2 * MB2) (MB2 + 48); OAlloc 0 100 None; OAlloc 0 2096960 None; OAlloc 0 20 None; OFree 4194480].
Definition hm : list op := [ORefill (2 * MB2) (MB2 + 48); OAlloc 0 20 None; OAlloc 0 100 None; OAlloc 0 2096960 None; OFree 4194528].
Definition hl : list op := [ORefill (2 * MB2) MB2; OAlloc 0 1500000 None].
