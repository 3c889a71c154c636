(** A chain call only depends on the memory that the chain may access. *)
From Verif Require Import Word Res Mem SizeClassModel ChainModel ChainInv ChainSpec ChainMore ChainPut PosixChain.
From Coq Require Import ZArith List Bool Lia.
Import ListNotations.
Open Scope Z_scope.

Definition agree (l : list (Z * Z)) (m m' : mem) : Prop := forall x b z, In (b, z) l -> b <= x < b + z -> m' x = m x.
Definition wide (l : list (Z * Z)) : Prop := forall r, In r l -> 24 <= snd r.
Definition Loc {A} (x : M A) : Prop := forall s a s' m, x s = Ok (a, s') -> wide (srng s) -> agree (srng s) (smem s) m ->
  wide (srng s') /\ exists m', x (set_mem s m) = Ok (a, set_mem s' m') /\ agree (srng s') (smem s') m'.

Lemma agree_ld l m m' a n : agree l m m' -> accb l a (Z.of_nat n) = true -> ld m' a n = ld m a n.
Proof. intros H K. apply accb_range in K as (b & z & K1 & K2 & K3). apply ld_ext. intros x Hx. apply (H x b z K1). lia. Qed.

Lemma loc_ret {A} (a : A) : Loc (ret a).
Proof. intros s b s' m E W H. injection E as <- <-. split; [exact W|]. exists m. split; [reflexivity|exact H]. Qed.
Lemma loc_bind {A B} (x : M A) (f : A -> M B) : Loc x -> (forall a, Loc (f a)) -> Loc (bind x f).
Proof.
  intros H1 H2 s b s' m E W H. unfold bind in E. destruct (x s) as [[a s1]| | |] eqn:E1; try discriminate. cbn in E.
  destruct (H1 _ _ _ _ E1 W H) as (W1 & m1 & X1 & A1). destruct (H2 a _ _ _ m1 E W1 A1) as (W2 & m2 & X2 & A2).
  split; [exact W2|]. exists m2. split; [|exact A2]. unfold bind. rewrite X1. exact X2.
Qed.
Lemma loc_load a n : Loc (loadn a n).
Proof.
  intros s v s' m E W H. unfold loadn in *. destruct (accb (srng s) a (Z.of_nat n)) eqn:K; [|discriminate]. injection E as <- <-.
  split; [exact W|]. exists m. split; [|exact H]. cbn [srng set_mem smem]. rewrite K. rewrite (agree_ld _ _ _ _ _ H K). reflexivity.
Qed.
Lemma sto_agree x : forall n (m0 m : mem) a v, m x = m0 x -> sto m a n v x = sto m0 a n v x.
Proof.
  induction n as [|n IH]; intros m0 m a v H; cbn [sto]; [exact H|]. first [apply IH; unfold upd; destruct (x =? a); [reflexivity|exact H] | unfold upd; destruct (x =? a); [reflexivity|apply IH; exact H]].
Qed.
Lemma loc_store a n v : Loc (storen a n v).
Proof.
  intros s u s' m E W H. unfold storen in *. destruct (accb (srng s) a (Z.of_nat n)) eqn:K; [|discriminate]. injection E as <- <-.
  split; [exact W|]. exists (sto m a n v). split; [cbn [srng set_mem smem]; rewrite K; reflexivity|].
  intros x b z Hb Hx. cbn [smem set_mem]. apply sto_agree. exact (H x b z Hb Hx).
Qed.
Lemma loc_no {A} (x : M A) : (forall s a s', x s <> Ok (a, s')) -> Loc x.
Proof. intros H s a s' m E. destruct (H _ _ _ E). Qed.
Lemma loc_abort {A} : Loc (@abort A). Proof. apply loc_no. discriminate. Qed.
Lemma loc_ub {A} : Loc (@ub A). Proof. apply loc_no. discriminate. Qed.
Lemma loc_nofuel {A} : Loc (@nofuel A). Proof. apply loc_no. discriminate. Qed.
Lemma loc_assume b : Loc (assume b). Proof. destruct b; [apply loc_ret|apply loc_abort]. Qed.
Lemma loc_lift {A} (r : res A) : Loc (lift r).
Proof. destruct r; [apply loc_ret|apply loc_no; discriminate|apply loc_no; discriminate|apply loc_no; discriminate]. Qed.
Lemma loc_modst f : (forall s m, f (set_mem s m) = set_mem (f s) m) -> (forall s, srng (f s) = srng s /\ smem (f s) = smem s) -> Loc (modst f).
Proof.
  intros H1 H2 s a s' m E W H. apply modst_ok in E as E'. subst s'. destruct (H2 s) as (K1 & K2). rewrite K1, K2. split; [exact W|].
  exists m. split; [|exact H]. destruct a. unfold modst. rewrite H1. reflexivity.
Qed.
Lemma loc_getst {B} (f : st -> M B) : (forall s m, f (set_mem s m) = f s) -> (forall s, Loc (f s)) -> Loc (bind getst f).
Proof.
  intros H1 H2 s b s' m E W H. unfold bind, getst in *. cbn [rbind] in *. rewrite H1. exact (H2 s s b s' m E W H).
Qed.
Lemma loc_source_free g b : Loc (source_free g b).
Proof.
  intros s a s' m E W H. unfold source_free in *. destruct (existsb _ (srng s) && _) eqn:K; [|discriminate]. injection E as <- <-.
  apply andb_prop in K as (K1 & K2). assert (Hb : exists z, In (b, z) (srng s) /\ 24 <= z).
  { apply existsb_exists in K1 as ((x & z) & K1 & K3). assert (x = b) by lia. subst x. exists z. split; [exact K1|]. exact (W _ K1). }
  destruct Hb as (z & Hb & Hz).
  assert (L1 : ld m b 7 = ld (smem s) b 7) by (apply ld_ext; intros x Hx; apply (H x b z Hb); cbn in Hx; lia).
  assert (L2 : ld m (b + 16) 8 = ld (smem s) (b + 16) 8) by (apply ld_ext; intros x Hx; apply (H x b z Hb); cbn in Hx; lia).
  split; [intros r Hr; apply filter_In in Hr as (Hr & _); exact (W _ Hr)|].
  exists m. cbn [srng smem set_mem]. rewrite L1, L2, K1, K2. split; [reflexivity|].
  intros x b' z' Hr. apply filter_In in Hr as (Hr & _). apply (H x b' z' Hr).
Qed.
Lemma loc_memcpy d a n : Loc (memcpy d a n).
Proof.
  intros s u s' m E W H. unfold memcpy in *. cbn [srng smem set_mem] in *.
  destruct (accb (srng s) a n && accb (srng s) d n && ((a + n <=? d) || (d + n <=? a) || (n =? 0))) eqn:K; [|discriminate]. injection E as <- <-.
  split; [exact W|]. eexists. split; [reflexivity|]. apply andb_prop in K as (K & _). apply andb_prop in K as (K & _).
  apply accb_range in K as (b0 & z0 & K1 & K2 & K3). intros x b z Hb Hx. cbn [smem set_mem].
  destruct ((d <=? x) && (x <? d + n)) eqn:D; [apply (H _ b0 z0 K1); lia|apply (H x b z Hb Hx)].
Qed.
Create HintDb loc.
#[local] Hint Resolve loc_load loc_store loc_abort loc_ub loc_nofuel loc_assume loc_lift loc_ret loc_source_free loc_memcpy : loc.
Ltac loc_step :=
  first [ solve [auto with loc nocore]
        | match goal with |- Loc (bind getst _) => apply loc_getst; [intros ? ?; reflexivity|intros ?] end
        | apply loc_bind; [|intros ?]
        | match goal with |- Loc (modst _) => idtac end; apply loc_modst; [intros ? ?; reflexivity|intros ?; split; reflexivity]
        | match goal with |- Loc (if ?b then _ else _) => destruct b end
        | match goal with |- Loc (match ?b with AtEnd => _ | AtStart => _ end) => destruct b end
        | progress cbv zeta
        | progress unfold get_size, set_size, set_addr, get_prevsize, set_prevsize, get_padding, set_padding, get_next, set_next, get_prev, set_prev, vsize, vprevsize, mark_status ].
Ltac loc_tac := intros; repeat loc_step.
Lemma loc_set_type v t : Loc (set_type v t). Proof. unfold set_type. loc_tac. Qed.
Lemma loc_set_state v t : Loc (set_state v t). Proof. unfold set_state. loc_tac. Qed.
Lemma loc_set_magic v t : Loc (set_magic v t). Proof. unfold set_magic. loc_tac. Qed.
Lemma loc_get_type v : Loc (get_type v). Proof. unfold get_type. loc_tac. Qed.
Lemma loc_get_state v : Loc (get_state v). Proof. unfold get_state. loc_tac. Qed.
Lemma loc_get_magic v : Loc (get_magic v). Proof. unfold get_magic. loc_tac. Qed.
#[local] Hint Resolve loc_set_type loc_set_state loc_set_magic loc_get_type loc_get_state loc_get_magic : loc.
Lemma loc_get_chunk v : Loc (get_chunk v). Proof. unfold get_chunk. loc_tac. Qed.
Lemma loc_get_ptr v : Loc (get_ptr v). Proof. unfold get_ptr. loc_tac. Qed.
#[local] Hint Resolve loc_get_chunk loc_get_ptr : loc.
Lemma loc_unpad v : Loc (unpad_vchunk v). Proof. unfold unpad_vchunk. loc_tac. Qed.
#[local] Hint Resolve loc_unpad : loc.
Lemma loc_gcu v : Loc (get_chunk_unpadded v). Proof. unfold get_chunk_unpadded. loc_tac. Qed.
Lemma loc_next_chunk v : Loc (next_chunk v). Proof. unfold next_chunk. loc_tac. Qed.
Lemma loc_prev_chunk v : Loc (prev_chunk v). Proof. unfold prev_chunk. loc_tac. Qed.
Lemma loc_setup_chunk a b c : Loc (setup_chunk a b c). Proof. unfold setup_chunk. loc_tac. Qed.
#[local] Hint Resolve loc_gcu loc_next_chunk loc_prev_chunk loc_setup_chunk : loc.
Lemma loc_insert g a md : Loc (free_list_insert g a md). Proof. unfold free_list_insert. loc_tac. Qed.
Lemma loc_remove g a : Loc (free_list_remove g a). Proof. unfold free_list_remove. loc_tac. Qed.
#[local] Hint Resolve loc_insert loc_remove : loc.
Lemma loc_left g f : forall a b, Loc (merge_left f g a b).
Proof. induction f as [|f IH]; cbn [merge_left]; loc_tac. Qed.
Lemma loc_right g f : forall a b, Loc (merge_right f g a b).
Proof. induction f as [|f IH]; cbn [merge_right]; loc_tac. Qed.
#[local] Hint Resolve loc_left loc_right : loc.
Lemma loc_merge f g v : Loc (merge_chunk f g v). Proof. unfold merge_chunk. loc_tac. Qed.
#[local] Hint Resolve loc_merge : loc.
Lemma loc_free_macro g v : Loc (free_macro_bloc g v). Proof. unfold free_macro_bloc. loc_tac. Qed.
#[local] Hint Resolve loc_free_macro : loc.
Lemma loc_free f g p : Loc (chain_free f g p). Proof. unfold chain_free. loc_tac. Qed.
#[local] Hint Resolve loc_free : loc.
Lemma loc_purge_loop f g q : forall e, Loc (purge_loop f q g e).
Proof. induction q as [|q IH]; cbn [purge_loop]; loc_tac. Qed.
#[local] Hint Resolve loc_purge_loop : loc.
Lemma loc_purge f q g : Loc (purge_rfq f q g).
Proof. unfold purge_rfq. loc_tac. Qed.
Lemma loc_find_loop f : forall l c n, Loc (find_adapted_loop f l c n).
Proof. induction f as [|f IH]; cbn [find_adapted_loop]; loc_tac. Qed.
#[local] Hint Resolve loc_find_loop : loc.
Lemma loc_find_adapted f l n : Loc (find_adapted f l n). Proof. unfold find_adapted. loc_tac. Qed.
#[local] Hint Resolve loc_find_adapted : loc.
Lemma loc_fne_loop g n : forall i, Loc (first_non_empty_loop g n i).
Proof. induction n as [|n IH]; cbn [first_non_empty_loop]; loc_tac. Qed.
#[local] Hint Resolve loc_fne_loop : loc.
Lemma loc_fne g l : Loc (first_non_empty g l). Proof. unfold first_non_empty. loc_tac. Qed.
#[local] Hint Resolve loc_fne : loc.
Lemma loc_find f g n : Loc (find_free_chunk f g n). Proof. unfold find_free_chunk. loc_tac. Qed.
#[local] Hint Resolve loc_find : loc.
Lemma loc_split v n : Loc (split_free_bloc v n). Proof. unfold split_free_bloc. loc_tac. Qed.
Lemma loc_padded v d : Loc (setup_chunk_padded v d). Proof. unfold setup_chunk_padded. loc_tac. Qed.
Lemma loc_stopper p q : Loc (create_stopper p q). Proof. unfold create_stopper. loc_tac. Qed.
Lemma loc_setup_macro p z : Loc (setup_macro_bloc p z). Proof. unfold setup_macro_bloc. loc_tac. Qed.
#[local] Hint Resolve loc_split loc_padded loc_stopper loc_setup_macro : loc.
Lemma loc_prepare g b : Loc (prepare_macro_bloc g b). Proof. unfold prepare_macro_bloc. loc_tac. Qed.
#[local] Hint Resolve loc_prepare : loc.
Lemma loc_request z : Loc (source_request None z). Proof. unfold source_request. loc_tac. Qed.
#[local] Hint Resolve loc_request : loc.
Lemma loc_request_mem g n : Loc (request_mem g None n). Proof. unfold request_mem. loc_tac. Qed.
#[local] Hint Resolve loc_request_mem : loc.
Lemma loc_refill g n : Loc (refill_mem g None n). Proof. unfold refill_mem. loc_tac. Qed.
#[local] Hint Resolve loc_refill : loc.
Lemma loc_alloc f g d n : Loc (alloc_align f g None d n).
Proof. unfold alloc_align. loc_tac. Qed.
#[local] Hint Resolve loc_alloc : loc.
Lemma loc_realloc f g h p n : Loc (chain_realloc f g None h p n). Proof. unfold chain_realloc. loc_tac. Qed.
Lemma loc_usable p : Loc (usable_size p). Proof. unfold usable_size. loc_tac. Qed.

(** The same call on another memory that agrees where the chain may look. *)
Definition no_grant (c : op) : Prop := match c with OAlloc _ _ None | ORealloc _ _ _ None => True | _ => False end.
Lemma step_local g s o c fuel r s' m : reach g s o -> no_grant c -> step fuel g c s = Ok (r, s') -> agree (srng s) (smem s) m ->
  exists m', step fuel g c (set_mem s m) = Ok (r, set_mem s' m').
Proof.
  intros R N E H. destruct (reach_rng _ _ _ R) as (_ & (W & _)). unfold step in *. rewrite clear_mem.
  assert (K : Loc (exec fuel g c)) by (destruct c as [d n [b|]| |h p n [b|]| | | | |]; try contradiction; cbn [exec]; [apply loc_alloc|apply loc_realloc]).
  destruct (K (clear_ev s) r s' m E W H) as (_ & m' & X & _). exists m'. exact X.
Qed.
Lemma usable_local s m p u : wide (srng s) -> agree (srng s) (smem s) m -> usable s p u -> usable (set_mem s m) p u.
Proof.
  intros W H E. destruct (loc_usable p s u s m E W H) as (_ & m' & X & _). unfold usable. rewrite X. 
  assert (K : forall s a s', usable_size p s = Ok (a, s') -> s' = s).
  { clear. intros s a s' E. unfold usable_size in E. destruct (p =? 0); [injection E as _ <-; reflexivity|].
    apply bind_ok in E as (v & s1 & E1 & E). unfold get_chunk_unpadded in E1. apply bind_ok in E1 as (v1 & s2 & E1 & E2). apply get_chunk_st in E1. apply unpad_st in E2. subst.
    destruct (v =? 0); [discriminate|].
    repeat (apply bind_ok in E as (? & ? & ?E1 & E); unfold vsize, get_size, loadn in *; try (match goal with H : (if accb _ _ _ then _ else _) = _ |- _ => destruct (accb _ _ _); [injection H as _ <-|discriminate] end)).
    injection E as _ <-. reflexivity. }
  pose proof (K _ _ _ X) as Y. rewrite Y. reflexivity.
Qed.
