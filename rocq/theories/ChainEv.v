(** Which exchanges with the memory source each function can make. *)
From Verif Require Import Word Res Mem SizeClassModel ChainModel ChainSpec.
From Coq Require Import ZArith List Bool Lia.
Import ListNotations.
Open Scope Z_scope.

(** Every range given back is one the chain holds at that moment. *)
Fixpoint held_ok (evs : list ev) (r : list (Z * Z)) : Prop :=
  match evs with
  | [] => True
  | e :: evs' => held_ok evs' r /\
      match e with EPut b => In b (map fst (fold_right apply_ev r evs')) | EGet _ _ => True end
  end.
Lemma held_ok_app e1 e2 r : held_ok e2 r -> held_ok e1 (fold_right apply_ev r e2) -> held_ok (e1 ++ e2) r.
Proof.
  intros H2. induction e1 as [|e e1 IH]; [auto|]. cbn [held_ok app]. intros (H3 & H4). split; [auto|].
  rewrite fold_right_app. exact H4.
Qed.

Definition Ev (P : ev -> Prop) {A} (x : M A) : Prop := forall s a s', x s = Ok (a, s') ->
  exists evs, sevs s' = evs ++ sevs s /\ Forall P evs /\ srng s' = fold_right apply_ev (srng s) evs /\ held_ok evs (srng s).

Lemma ev_none P s s' : sevs s' = sevs s -> srng s' = srng s ->
  exists evs, sevs s' = evs ++ sevs s /\ Forall P evs /\ srng s' = fold_right apply_ev (srng s) evs /\ held_ok evs (srng s).
Proof. intros H1 H2. exists []. split; [exact H1|]. split; [constructor|]. split; [exact H2|exact I]. Qed.
Lemma ev_ret P {A} (a : A) : Ev P (ret a).
Proof. intros s a' s' E. injection E as <- <-. apply ev_none; reflexivity. Qed.
Lemma ev_bind P {A B} (x : M A) (f : A -> M B) : Ev P x -> (forall a, Ev P (f a)) -> Ev P (bind x f).
Proof.
  intros H1 H2 s b s' E. unfold bind in E. destruct (x s) as [[a s1]| | |] eqn:E1; try discriminate. cbn in E.
  destruct (H1 _ _ _ E1) as (e1 & K1 & K2 & K3 & K4). destruct (H2 a _ _ _ E) as (e2 & J1 & J2 & J3 & J4).
  exists (e2 ++ e1). split; [rewrite J1, K1, app_assoc; reflexivity|]. split; [apply Forall_app; auto|].
  split; [rewrite J3, K3, fold_right_app; reflexivity|]. apply held_ok_app; [exact K4|]. rewrite <- K3. exact J4.
Qed.
Lemma ev_weaken (P P' : ev -> Prop) {A} (x : M A) : (forall e, P e -> P' e) -> Ev P x -> Ev P' x.
Proof. intros H Hx s a s' E. destruct (Hx _ _ _ E) as (evs & K1 & K2 & K3). exists evs. split; [exact K1|]. split; [eapply Forall_impl; eauto|exact K3]. Qed.
Lemma ev_load P a n : Ev P (loadn a n).
Proof. intros s x s' E. unfold loadn in E. destruct (accb _ _ _); [injection E as _ <-; apply ev_none; reflexivity|discriminate]. Qed.
Lemma ev_store P a n v : Ev P (storen a n v).
Proof. intros s x s' E. unfold storen in E. destruct (accb _ _ _); [injection E as _ <-; apply ev_none; reflexivity|discriminate]. Qed.
Lemma ev_abort P {A} : Ev P (@abort A).
Proof. intros s a s' E. discriminate. Qed.
Lemma ev_ub P {A} : Ev P (@ub A).
Proof. intros s a s' E. discriminate. Qed.
Lemma ev_nofuel P {A} : Ev P (@nofuel A).
Proof. intros s a s' E. discriminate. Qed.
Lemma ev_assume P b : Ev P (assume b).
Proof. destruct b; [apply ev_ret|apply ev_abort]. Qed.
Lemma ev_lift P {A} (r : res A) : Ev P (lift r).
Proof. intros s a s' E. unfold lift in E. destruct r; cbn in E; try discriminate. injection E as _ <-. apply ev_none; reflexivity. Qed.
Lemma ev_getst P : Ev P getst.
Proof. intros s a s' E. injection E as <- <-. apply ev_none; reflexivity. Qed.
Lemma ev_modst P f : (forall s, sevs (f s) = sevs s /\ srng (f s) = srng s) -> Ev P (modst f).
Proof. intros H s a s' E. injection E as _ <-. destruct (H s). apply ev_none; assumption. Qed.
Lemma ev_memcpy P a b n : Ev P (memcpy a b n).
Proof. intros s x s' E. unfold memcpy in E. destruct (_ && _); [injection E as _ <-; apply ev_none; reflexivity|discriminate]. Qed.

Create HintDb ev.
#[local] Hint Resolve ev_load ev_store ev_abort ev_ub ev_nofuel ev_assume ev_lift ev_getst ev_memcpy ev_ret : ev.
Ltac ev_step :=
  first [ solve [auto with ev nocore]
        | apply ev_bind; [|intros ?]
        | apply ev_modst; intros ?; split; reflexivity
        | match goal with |- Ev _ (if ?b then _ else _) => destruct b end
        | match goal with |- Ev _ (match ?b with AtEnd => _ | AtStart => _ end) => destruct b end
        | progress cbv zeta
        | progress unfold get_size, set_size, set_addr, get_prevsize, set_prevsize, get_padding, set_padding, get_next, set_next, get_prev, set_prev, vsize, vprevsize, mark_status ].
Ltac ev_tac := intros; repeat ev_step.

Lemma ev_set_type P v t : Ev P (set_type v t). Proof. unfold set_type. ev_tac. Qed.
Lemma ev_set_state P v t : Ev P (set_state v t). Proof. unfold set_state. ev_tac. Qed.
Lemma ev_set_magic P v t : Ev P (set_magic v t). Proof. unfold set_magic. ev_tac. Qed.
Lemma ev_get_type P v : Ev P (get_type v). Proof. unfold get_type. ev_tac. Qed.
Lemma ev_get_state P v : Ev P (get_state v). Proof. unfold get_state. ev_tac. Qed.
Lemma ev_get_magic P v : Ev P (get_magic v). Proof. unfold get_magic. ev_tac. Qed.
#[local] Hint Resolve ev_set_type ev_set_state ev_set_magic ev_get_type ev_get_state ev_get_magic : ev.
Lemma ev_get_chunk P v : Ev P (get_chunk v). Proof. unfold get_chunk. ev_tac. Qed.
Lemma ev_get_ptr P v : Ev P (get_ptr v). Proof. unfold get_ptr. ev_tac. Qed.
#[local] Hint Resolve ev_get_chunk ev_get_ptr : ev.
Lemma ev_unpad P v : Ev P (unpad_vchunk v). Proof. unfold unpad_vchunk. ev_tac. Qed.
#[local] Hint Resolve ev_unpad : ev.
Lemma ev_gcu P v : Ev P (get_chunk_unpadded v). Proof. unfold get_chunk_unpadded. ev_tac. Qed.
Lemma ev_next_chunk P v : Ev P (next_chunk v). Proof. unfold next_chunk. ev_tac. Qed.
Lemma ev_prev_chunk P v : Ev P (prev_chunk v). Proof. unfold prev_chunk. ev_tac. Qed.
Lemma ev_setup_chunk P a b c : Ev P (setup_chunk a b c). Proof. unfold setup_chunk. ev_tac. Qed.
#[local] Hint Resolve ev_gcu ev_next_chunk ev_prev_chunk ev_setup_chunk : ev.
Lemma ev_setup_macro P a b : Ev P (setup_macro_bloc a b). Proof. unfold setup_macro_bloc. ev_tac. Qed.
Lemma ev_setup_padded P a b : Ev P (setup_chunk_padded a b). Proof. unfold setup_chunk_padded. ev_tac. Qed.
Lemma ev_stopper P a b : Ev P (create_stopper a b). Proof. unfold create_stopper. ev_tac. Qed.
Lemma ev_insert P g a md : Ev P (free_list_insert g a md). Proof. unfold free_list_insert. ev_tac. Qed.
Lemma ev_remove P g a : Ev P (free_list_remove g a). Proof. unfold free_list_remove. ev_tac. Qed.
#[local] Hint Resolve ev_setup_macro ev_setup_padded ev_stopper ev_insert ev_remove : ev.
Lemma ev_adapted_loop P f : forall l c n, Ev P (find_adapted_loop f l c n).
Proof. induction f as [|f IH]; cbn [find_adapted_loop]; ev_tac. Qed.
#[local] Hint Resolve ev_adapted_loop : ev.
Lemma ev_adapted P f l n : Ev P (find_adapted f l n). Proof. unfold find_adapted. ev_tac. Qed.
Lemma ev_fne_loop P g n : forall i, Ev P (first_non_empty_loop g n i).
Proof. induction n as [|n IH]; cbn [first_non_empty_loop]; ev_tac. Qed.
Lemma ev_fne P g l : Ev P (first_non_empty g l). Proof. apply ev_fne_loop. Qed.
#[local] Hint Resolve ev_adapted ev_fne : ev.
Lemma ev_find P f g n : Ev P (find_free_chunk f g n). Proof. unfold find_free_chunk. ev_tac. Qed.
Lemma ev_split P v n : Ev P (split_free_bloc v n). Proof. unfold split_free_bloc. ev_tac. Qed.
Lemma ev_left P g f : forall a b, Ev P (merge_left f g a b).
Proof. induction f as [|f IH]; cbn [merge_left]; ev_tac. Qed.
Lemma ev_right P g f : forall a b, Ev P (merge_right f g a b).
Proof. induction f as [|f IH]; cbn [merge_right]; ev_tac. Qed.
#[local] Hint Resolve ev_find ev_split ev_left ev_right : ev.
Lemma ev_merge P f g v : Ev P (merge_chunk f g v). Proof. unfold merge_chunk. ev_tac. Qed.
Lemma ev_prepare P g b : Ev P (prepare_macro_bloc g b). Proof. unfold prepare_macro_bloc. ev_tac. Qed.
#[local] Hint Resolve ev_merge ev_prepare : ev.

Definition is_put (e : ev) : Prop := match e with EPut _ => True | _ => False end.
Definition is_get (gr : option Z) (e : ev) : Prop := match e with EGet b _ => gr = Some b | _ => False end.
Definition src_ev (g : cfg) (P : ev -> Prop) (e : ev) : Prop := csrc g = true /\ P e.

Lemma ev_source_request g gr z : csrc g = true -> Ev (src_ev g (is_get gr)) (source_request gr z).
Proof.
  intros Hc. destruct gr as [b|]; cbn [source_request]; [|apply ev_ret]. apply ev_bind; [|intros ?; ev_tac].
  intros s a s' E. injection E as _ <-. exists [EGet b z]. split; [reflexivity|].
  split; [repeat constructor; exact Hc|]. split; [reflexivity|]. cbn. auto.
Qed.
Lemma ev_source_free g b : csrc g = true -> Ev (src_ev g is_put) (source_free g b).
Proof.
  intros Hc s a s' E. unfold source_free in E. destruct (existsb _ _) eqn:EX; [|discriminate]. destruct (_ || _); [|discriminate]. injection E as _ <-.
  exists [EPut b]. split; [reflexivity|]. split; [repeat constructor; exact Hc|]. split; [reflexivity|]. cbn. split; [exact I|].
  apply existsb_exists in EX as ((x & z) & H1 & H2). apply in_map_iff. exists (x, z). split; [cbn; lia|exact H1].
Qed.
Lemma ev_request g gr n : Ev (src_ev g (is_get gr)) (request_mem g gr n).
Proof.
  unfold request_mem. destruct (csrc g) eqn:Hc; cbn [negb]; [|apply ev_ret]. cbv zeta. apply ev_bind; [apply ev_source_request; exact Hc|].
  ev_tac.
Qed.
#[local] Hint Resolve ev_request : ev.
Lemma ev_refill g gr n : Ev (src_ev g (is_get gr)) (refill_mem g gr n). Proof. unfold refill_mem. ev_tac. Qed.
#[local] Hint Resolve ev_refill : ev.
Lemma ev_alloc f g gr d n : Ev (src_ev g (is_get gr)) (alloc_align f g gr d n). Proof. unfold alloc_align. ev_tac. Qed.
Lemma ev_free_macro g v : csrc g = true -> Ev (src_ev g is_put) (free_macro_bloc g v).
Proof. intros Hc. unfold free_macro_bloc. assert (K := fun b => ev_source_free g b Hc). ev_tac. Qed.
Lemma ev_free f g p : Ev (src_ev g is_put) (chain_free f g p).
Proof.
  unfold chain_free. destruct (p =? 0); [apply ev_ret|]. apply ev_bind; [ev_tac|]. intros v. destruct (v =? 0); [ev_tac|].
  apply ev_bind; [ev_tac|]. intros s. apply ev_bind; [ev_tac|]. intros _. apply ev_bind; [ev_tac|]. intros sz.
  destruct (csrc g) eqn:Hc.
  - assert (K := fun v => ev_free_macro g v Hc). destruct (is_huge g sz); [apply K|]. ev_tac.
  - unfold is_huge. rewrite Hc. cbn [andb]. ev_tac.
Qed.
Lemma ev_purge_loop f g q : forall e, Ev (src_ev g is_put) (purge_loop f q g e).
Proof. assert (K := ev_free f g). induction q as [|q IH]; cbn [purge_loop]; ev_tac. Qed.

Definition gets (c : op) (e : ev) : Prop :=
  match e with
  | EPut _ => match c with OFree _ | ORealloc _ _ _ _ | OPurge => True | _ => False end
  | EGet b _ => match c with OAlloc _ _ gr | ORealloc _ _ _ gr => gr = Some b | _ => False end
  end.
Definition not_refill (c : op) : Prop := match c with ORefill _ _ => False | _ => True end.

Lemma ev_exec f g c : not_refill c -> Ev (src_ev g (gets c)) (exec f g c).
Proof.
  intros NR. destruct c as [d n gr|p|h p n gr|b z|x v|p| |m]; cbn [exec].
  - eapply ev_weaken; [|apply ev_alloc]. intros e (H1 & H2). split; [exact H1|]. destruct e; cbn in *; auto.
  - apply ev_bind; [|intros; apply ev_ret]. eapply ev_weaken; [|apply ev_free]. intros e (H1 & H2). split; [exact H1|]. destruct e; cbn in *; auto.
  - assert (KA : forall h n, Ev (src_ev g (gets (ORealloc h p n gr))) (alloc_align f g gr h n)).
    { intros. eapply ev_weaken; [|apply ev_alloc]. intros e (H1 & H2). split; [exact H1|]. destruct e; cbn in *; auto. }
    assert (KF : Ev (src_ev g (gets (ORealloc h p n gr))) (chain_free f g p)).
    { eapply ev_weaken; [|apply ev_free]. intros e (H1 & H2). split; [exact H1|]. destruct e; cbn in *; auto; contradiction. }
    specialize (KA h n). unfold chain_realloc. ev_tac.
  - contradiction.
  - ev_tac.
  - apply ev_bind; [|intros; apply ev_ret]. unfold rfq_register, queue_insert. ev_tac.
  - apply ev_bind; [|intros; apply ev_ret]. unfold purge_rfq.
    assert (KF : forall e, Ev (src_ev g (gets OPurge)) (purge_loop f f g e)).
    { intros. eapply ev_weaken; [|apply ev_purge_loop]. intros e0 (H1 & H2). split; [exact H1|]. destruct e0; cbn in *; auto. }
    ev_tac.
  - ev_tac.
Qed.

(** A refill makes no exchange. *)
Lemma ev_user_refill g b z s a s' : user_refill g b z s = Ok (a, s') -> sevs s' = sevs s.
Proof.
  assert (K : forall {T} (x : M T) s a s', Ev (fun _ => False) x -> x s = Ok (a, s') -> sevs s' = sevs s).
  { intros T x s0 a0 s0' H E. destruct (H _ _ _ E) as (evs & K1 & K2 & _). destruct evs as [|e evs]; [exact K1|]. inversion K2; contradiction. }
  assert (BI : forall {T U} (x : M T) (f : T -> M U) s a s', (forall s a s', x s = Ok (a, s') -> sevs s' = sevs s) ->
    (forall t s a s', f t s = Ok (a, s') -> sevs s' = sevs s) -> bind x f s = Ok (a, s') -> sevs s' = sevs s).
  { intros T U x f s0 a0 s0' H1 H2 E. unfold bind in E. destruct (x s0) as [[t s1]| | |] eqn:E1; try discriminate. cbn in E.
    rewrite (H2 _ _ _ _ E). exact (H1 _ _ _ E1). }
  unfold user_refill. revert s a s'. intros s a s'.
  apply BI; [intros; eapply K; [|eassumption]; ev_tac|intros _]. clear s a s'. intros s a s'.
  apply BI; [intros; eapply K; [|eassumption]; ev_tac|intros _]. clear s a s'. intros s a s'.
  apply BI; [|intros _; clear s a s'; intros s a s'; intros; eapply K; [|eassumption]; ev_tac].
  clear s a s'. intros s a s'. destruct (negb _ && _).
  - apply BI; [intros s0 a0 s0' E; injection E as _ <-; reflexivity|intros _]. clear s a s'. intros s a s' E. eapply K; [|exact E]. ev_tac.
  - intros E. eapply K; [|exact E]. ev_tac.
Qed.

Lemma exec_nosrc f g c s r s' : csrc g = false -> exec f g c s = Ok (r, s') -> sevs s' = sevs s.
Proof.
  intros Hc E. destruct c as [d n gr|p|h p n gr|b z|x v|p| |m].
  4: { cbn [exec] in E. unfold bind in E. destruct (user_refill g b z s) as [[t s1]| | |] eqn:E1; try discriminate.
       injection E as _ <-. eapply ev_user_refill; eauto. }
  all: match type of E with exec _ _ ?c _ = _ => destruct (ev_exec f g c I _ _ _ E) as (evs & K1 & K2 & _) end; destruct evs as [|e evs]; [exact K1|];
    inversion K2 as [|? ? (K3 & _) _]; congruence.
Qed.
