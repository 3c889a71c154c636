(** C28: threads sharing a thread-safe chain.
    [P] is any implementation of the sections by atomic steps: their composition is the sequential call. *)
From Verif Require Import Word Res Mem ChainModel ChainSpec ChainRun LockModel AtomicModel AtomicSpec AtomicProofs ThreadSpec ThreadProofs.
From Coq Require Import ZArith List Bool Lia.
Import ListNotations.
Open Scope Z_scope.

(** C28. Whatever the interleaving of any number of threads, the history of calls and returns is linearizable: each call takes effect
    once, between call and return, and the results are those of the calls run one after another in that order. *)
Theorem C28_linearizable : forall g fuel (P : op -> prog st Z) s0 c, (forall a s, prun (P a) s = step fuel g a s) ->
  cexec P s0 c -> linearizable (step fuel g) s0 (ctr c).
Proof. exact chain_linearizable. Qed.
Print Assumptions C28_linearizable.

(** C28. When nobody is in the section, the chain is in the state left by that sequential execution. *)
Theorem C28_state : forall g fuel (P : op -> prog st Z) s0 c, (forall a s, prun (P a) s = step fuel g a s) ->
  cexec P s0 c -> quiet c -> exists h f, erase h = ctr c /\ well h f /\ in_order (step fuel g) s0 (points h) (sh c).
Proof. exact chain_state. Qed.
Print Assumptions C28_state.

(** C28. If the threads respect the contract of malloc and free (read on the history of calls and returns), then the chain is in a
    state of a valid sequential history, to which C01-C08 and the others apply, and every address the program holds is a
    live block of it. *)
Theorem C28_threads_safe : forall g fuel (P : op -> prog st Z) s0 o0 c q own,
  (forall a s, prun (P a) s = step fuel g a s) -> reach g s0 o0 ->
  cexec P s0 c -> contract g o0 (ctr c) q own -> quiet c ->
  exists o, reach g (sh c) o /\ forall p, own p = true -> exists n d, In (mkBlk p n d) (live o).
Proof. exact threads_safe. Qed.
Print Assumptions C28_threads_safe.

(** C28. And no section meets undefined behaviour or a failed assertion. *)
Theorem C28_no_crash : forall g fuel (P : op -> prog st Z) s0 o0 c q own t p,
  (forall a s, prun (P a) s = step fuel g a s) -> reach g s0 o0 ->
  cexec P s0 c -> contract g o0 (ctr c) q own -> thr c t = TIn p -> prun p (sh c) <> UB /\ prun p (sh c) <> Abort.
Proof. exact threads_no_crash. Qed.
Print Assumptions C28_no_crash.

(** C28. No allocation returns an address that the program already holds: [h1] is the history up to the return of [r]. *)
Theorem C28_fresh_result : forall g fuel (P : op -> prog st Z) s0 o0 c h1 t r h2 q own d n gr,
  (forall a s, prun (P a) s = step fuel g a s) -> reach g s0 o0 ->
  cexec P s0 c -> ctr c = h1 ++ ERetn t r :: h2 -> contract g o0 h1 q own -> q t = Some (OAlloc d n gr) -> r <> 0 -> own r = false.
Proof. exact fresh_result. Qed.
Print Assumptions C28_fresh_result.

(** Two threads allocate at the same time, sections in two steps; thread 2 spins while thread 1 is in the section; then thread 2
    frees its block. *)
Definition acts : list (cact op) :=
  [DoCall 1 (OAlloc 0 100 None); DoCall 2 (OAlloc 0 100 None); DoStep 1; DoStep 1; DoStep 2; DoStep 2; DoStep 1; DoStep 1; DoStep 2; DoStep 2;
   DoStep 2; DoStep 2; DoStep 2; DoStep 2; DoStep 1; DoCall 2 (OFree 1049200); DoStep 2; DoStep 2; DoStep 2; DoStep 2; DoStep 2]%nat.
Definition cfinal : cst st op Z :=
  match cplay (two_steps gu 200) (mkC SU 0 (fun _ => TOut) []) acts with Some c => c | None => mkC SU 0 (fun _ => TOut) [] end.
Example C28_nontrivial : cexec (two_steps gu 200) SU cfinal /\ quiet cfinal /\
  ctr cfinal = [ECall 1%nat (OAlloc 0 100 None); ECall 2%nat (OAlloc 0 100 None); ERetn 2%nat 1049200; ERetn 1%nat 1049072;
                ECall 2%nat (OFree 1049200); ERetn 2%nat 0] /\ reach gu SU OU /\ csrc gu = false /\
  exists q own, contract gu OU (ctr cfinal) q own /\ own 1049072 = true.
Proof.
  assert (T : match cplay (two_steps gu 200) (mkC SU 0 (fun _ => TOut) []) acts with Some _ => true | None => false end = true) by (vm_compute; reflexivity).
  split; [|split; [|split; [|split; [exact reach_U|split; [reflexivity|]]]]].
  - unfold cfinal. destruct (cplay _ _ acts) as [c|] eqn:E; [|discriminate]. exact (cplay_exec _ _ _ _ _ _ _ _ (cexec_init _ _) E).
  - intros [|[|[|t]]]; vm_compute; exact Logic.I.
  - vm_compute. reflexivity.
  - assert (E : ctr cfinal = (((((([] ++ [ECall 1%nat (OAlloc 0 100 None)]) ++ [ECall 2%nat (OAlloc 0 100 None)]) ++ [ERetn 2%nat 1049200]) ++
        [ERetn 1%nat 1049072]) ++ [ECall 2%nat (OFree 1049200)]) ++ [ERetn 2%nat 0])) by (vm_compute; reflexivity).
    rewrite E. set (u := fun (f : nat -> option op) t v x => if Nat.eqb x t then v else f x).
    set (v := fun (f : Z -> bool) t b x => if x =? t then b else f x).
    assert (U1 : forall f t a, u f t a t = a) by (intros; unfold u; rewrite Nat.eqb_refl; reflexivity).
    assert (U2 : forall f t a x, x <> t -> u f t a x = f x) by (intros f t a x N; unfold u; destruct (Nat.eqb_spec x t); [contradiction|reflexivity]).
    assert (V1 : forall f t a, v f t a t = a) by (intros; unfold v; rewrite Z.eqb_refl; reflexivity).
    assert (V2 : forall f t a x, x <> t -> v f t a x = f x) by (intros f t a x N; unfold v; destruct (Z.eqb_spec x t); [contradiction|reflexivity]).
    set (q0 := fun _ : nat => @None op). set (w0 := fun _ : Z => false).
    set (q1 := u q0 1%nat (Some (OAlloc 0 100 None))). set (q2 := u q1 2%nat (Some (OAlloc 0 100 None))).
    set (q3 := u q2 2%nat None). set (w3 := v w0 1049200 true). set (q4 := u q3 1%nat None). set (w4 := v w3 1049072 true).
    set (q5 := u q4 2%nat (Some (OFree 1049200))). set (w5 := v w4 1049200 false). set (q6 := u q5 2%nat None).
    exists q6, w5. split; [|reflexivity].
    eapply con_ret_free with (q := q5) (t := 2%nat); [|reflexivity|apply U1|intros; apply U2; assumption].
    eapply con_free with (q := q4) (own := w4); [|right; reflexivity|apply V1|intros; apply V2; assumption|reflexivity|apply U1|intros; apply U2; assumption].
    eapply con_ret_alloc with (q := q3) (own := w3); [|reflexivity|apply U1|intros; apply U2; assumption|apply V1|intros; apply V2; assumption].
    eapply con_ret_alloc with (q := q2) (own := w0); [|reflexivity|apply U1|intros; apply U2; assumption|apply V1|intros; apply V2; assumption].
    eapply con_alloc with (q := q1); [|lia|left; reflexivity|reflexivity|discriminate|reflexivity|apply U1|intros; apply U2; assumption].
    eapply con_alloc with (q := q0); [constructor|lia|left; reflexivity|reflexivity|discriminate|reflexivity|apply U1|intros; apply U2; assumption].
Qed.

(** The same on a chain with a memory source: each call would get a fresh segment of its own; thread 1 comes first and takes its
    segment, thread 2 finds room there. *)
Definition acts_src : list (cact op) :=
  [DoCall 1 (OAlloc 0 100 (Some (20 * MB2)%Z)); DoCall 2 (OAlloc 0 1000000 (Some (30 * MB2)%Z)); DoStep 1; DoStep 1; DoStep 2; DoStep 2;
   DoStep 1; DoStep 1; DoStep 2; DoStep 2; DoStep 2; DoStep 2; DoStep 2; DoStep 2; DoStep 1]%nat.
Definition S00 : st := fin_s 200 gs [].
Definition csource : cst st op Z :=
  match cplay (two_steps gs 200) (mkC S00 0 (fun _ => TOut) []) acts_src with Some c => c | None => mkC S00 0 (fun _ => TOut) [] end.
Example C28_nontrivial_source : cexec (two_steps gs 200) S00 csource /\ quiet csource /\
  ctr csource = [ECall 1%nat (OAlloc 0 100 (Some 41943040)); ECall 2%nat (OAlloc 0 1000000 (Some 62914560)); ERetn 2%nat 41943216; ERetn 1%nat 41943088] /\
  reach gs S00 (mkObs [] [] []) /\ csrc gs = true /\ exists q own, contract gs (mkObs [] [] []) (ctr csource) q own /\ own 41943088 = true.
Proof.
  assert (T : match cplay (two_steps gs 200) (mkC S00 0 (fun _ => TOut) []) acts_src with Some _ => true | None => false end = true) by (vm_compute; reflexivity).
  assert (E : ctr csource = (((([] ++ [ECall 1%nat (OAlloc 0 100 (Some 41943040))]) ++ [ECall 2%nat (OAlloc 0 1000000 (Some 62914560))]) ++
        [ERetn 2%nat 41943216]) ++ [ERetn 1%nat 41943088])) by (vm_compute; reflexivity).
  split; [|split; [|split; [exact E|split; [|split; [reflexivity|]]]]].
  - clear E. unfold csource. destruct (cplay _ _ acts_src) as [c|] eqn:X; [|discriminate]. exact (cplay_exec _ _ _ _ _ _ _ _ (cexec_init _ _) X).
  - intros [|[|[|t]]]; vm_compute; exact Logic.I.
  - change (mkObs [] [] []) with (fin_o 200 gs []). apply fin_reach. vm_compute. reflexivity.
  - rewrite E. set (u := fun (f : nat -> option op) t v x => if Nat.eqb x t then v else f x).
    set (v := fun (f : Z -> bool) t b x => if x =? t then b else f x).
    assert (U1 : forall f t a, u f t a t = a) by (intros; unfold u; rewrite Nat.eqb_refl; reflexivity).
    assert (U2 : forall f t a x, x <> t -> u f t a x = f x) by (intros f t a x N; unfold u; destruct (Nat.eqb_spec x t); [contradiction|reflexivity]).
    assert (V1 : forall f t a, v f t a t = a) by (intros; unfold v; rewrite Z.eqb_refl; reflexivity).
    assert (V2 : forall f t a x, x <> t -> v f t a x = f x) by (intros f t a x N; unfold v; destruct (Z.eqb_spec x t); [contradiction|reflexivity]).
    set (q0 := fun _ : nat => @None op). set (w0 := fun _ : Z => false).
    set (q1 := u q0 1%nat (Some (OAlloc 0 100 (Some 41943040)))). set (q2 := u q1 2%nat (Some (OAlloc 0 1000000 (Some 62914560)))).
    set (q3 := u q2 2%nat None). set (w3 := v w0 41943216 true). set (q4 := u q3 1%nat None). set (w4 := v w3 41943088 true).
    exists q4, w4. split; [|reflexivity].
    assert (FG : forall L n b, n <= 1000000 -> 0 < b -> b + 2097152 <= 2 ^ 56 -> b mod 8 = 0 ->
      (forall r, In r ((65536, POOL_SIZE) :: L) -> apart (b, 2097152) r) -> fresh_grant gs L 0 n (Some b)).
    { intros L n b H1 H2 H3 H4 H5. assert (NH : ~ huge 0 n) by (unfold huge, asked; cbn [Z.ltb Z.compare]; lia).
      split; [exact NH|]. intros b' HB. injection HB as <-. rewrite (small_ask _ _ NH). auto. }
    eapply con_ret_alloc with (q := q3) (own := w3); [|reflexivity|apply U1|intros; apply U2; assumption|apply V1|intros; apply V2; assumption].
    eapply con_ret_alloc with (q := q2) (own := w0); [|reflexivity|apply U1|intros; apply U2; assumption|apply V1|intros; apply V2; assumption].
    eapply con_alloc with (q := q1); [|lia|left; reflexivity|reflexivity| |reflexivity|apply U1|intros; apply U2; assumption].
    2:{ intros _. apply FG; [lia|lia|vm_compute; discriminate|reflexivity|]. intros r [<-|[<-|[]]]; [right|right]; vm_compute; discriminate. }
    eapply con_alloc with (q := q0); [constructor|lia|left; reflexivity|reflexivity| |reflexivity|apply U1|intros; apply U2; assumption].
    intros _. apply FG; [lia|lia|vm_compute; discriminate|reflexivity|]. intros r [<-|[]]. right. vm_compute. discriminate.
Qed.
