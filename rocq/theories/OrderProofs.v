(** Proofs for OrderModel.v: every path gives back what it takes, in order, and the threads never wait in a circle; and
    the paths that do not. *)
From Verif Require Import OrderSpec OrderModel.
From Coq Require Import List Bool Arith Lia.
Import ListNotations.
Local Open Scope prog_scope.

Notation opl := (op lk).
Notation st := (ost lk).
Notation mv := (moves lk lk_eqb).
Notation mvs := (moves_star lk lk_eqb).

Lemma lk_eqb_refl : forall l, lk_eqb l l = true.
Proof. intros. unfold lk_eqb. destruct (lk_eq l l); congruence. Qed.
Lemma lk_eqb_neq : forall a b, a <> b -> lk_eqb a b = false.
Proof. intros. unfold lk_eqb. destruct (lk_eq a b); congruence. Qed.

(** ** What a list of operations does with the locks that the thread holds *)
(** The locks given back are held; the others are left. *)
Inductive gives : list lk -> list opl -> list lk -> Prop :=
| v_nil : forall h, gives h [] h
| v_take : forall h l x e, gives (l :: h) x e -> gives h (Take l :: x) e
| v_give : forall a b l x e, gives (a ++ b) x e -> gives (a ++ l :: b) (Give l :: x) e.

Lemma gives_app : forall h x e y f, gives h x e -> gives e y f -> gives h (x ++ y) f.
Proof. induction 1; intros; cbn [app]; [assumption|constructor; auto|constructor; auto]. Qed.

(** A rank for the locks; in order: only a lock above all those that are held is taken. *)
Definition rank (l : lk) : nat :=
  match l with LInit => 0 | LChain 0 => 2 | LChain (S _) => 1 | LSrc _ => 3 | LReg => 4 | LRobin => 5 | LPage => 6 end.
Inductive follows : list lk -> list opl -> list lk -> Prop :=
| f_nil : forall h, follows h [] h
| f_take : forall h l x e, (forall y, In y h -> rank y < rank l) -> follows (l :: h) x e -> follows h (Take l :: x) e
| f_give : forall h l x e, follows h x e -> follows (l :: h) (Give l :: x) e.

Lemma follows_app : forall h x e y f, follows h x e -> follows e y f -> follows h (x ++ y) f.
Proof. induction 1; intros; cbn [app]; [assumption|constructor; auto|constructor; auto]. Qed.

(** ** All paths only give back what they took *)
Definition leak (p : prog) : Prop := forall h x, path p x -> exists e, gives h x (e ++ h).
Definition qleak (l : lk) (q : prog) : Prop := forall a h x, path q x -> exists e, gives (a ++ l :: h) x (e ++ h).

Lemma leak_skip : leak Skip.
Proof. intros h x P. inversion P; subst. exists []. constructor. Qed.
Lemma leak_seq : forall p q, leak p -> leak q -> leak (p ;; q).
Proof.
  intros p q A B h x P. inversion P; subst.
  match goal with H : path p ?u |- _ => destruct (A h u H) as (e1 & G1) end.
  match goal with H : path q ?u |- _ => destruct (B (e1 ++ h) u H) as (e2 & G2) end.
  exists (e2 ++ e1). rewrite <- app_assoc. eapply gives_app; eassumption.
Qed.
Lemma leak_alt : forall p q, leak p -> leak q -> leak (p or q).
Proof. intros p q A B h x P. inversion P; subst; [apply (A h x)|apply (B h x)]; assumption. Qed.
Lemma leak_many : forall p, leak p -> leak (Many p).
Proof.
  intros p A h x P. remember (Many p) as m eqn:E. revert h. induction P; intros h; try discriminate E; injection E; intros; subst.
  - exists []. constructor.
  - match goal with H : path p ?u |- _ => destruct (A h u H) as (e1 & G1) end.
    destruct (IHP2 eq_refl (e1 ++ h)) as (e2 & G2). exists (e2 ++ e1). rewrite <- app_assoc. eapply gives_app; eassumption.
Qed.
Lemma qleak_skip : forall l, qleak l Skip.
Proof. intros l a h x P. inversion P; subst. exists (a ++ [l]). rewrite <- app_assoc. constructor. Qed.
Lemma qleak_give : forall l, qleak l (give l).
Proof. intros l a h x P. inversion P; subst. exists a. constructor. constructor. Qed.
Lemma qleak_alt : forall l p q, qleak l p -> qleak l q -> qleak l (p or q).
Proof. intros l p q A B a h x P. inversion P; subst; [apply (A a h x)|apply (B a h x)]; assumption. Qed.
Lemma qleak_seq : forall l p q, leak p -> qleak l q -> qleak l (p ;; q).
Proof.
  intros l p q A B a h x P. inversion P; subst.
  match goal with H : path p ?u |- _ => destruct (A (a ++ l :: h) u H) as (e1 & G1) end.
  match goal with H : path q ?u |- _ => destruct (B (e1 ++ a) h u H) as (e2 & G2) end.
  exists e2. rewrite <- app_assoc in G2. eapply gives_app; eassumption.
Qed.
Lemma leak_take : forall l q, qleak l q -> leak (take l ;; q).
Proof.
  intros l q A h x P. inversion P; subst.
  match goal with H : path (take l) _ |- _ => inversion H; subst end.
  match goal with H : path q ?u |- _ => destruct (A [] h u H) as (e & G) end.
  exists e. cbn [app]. constructor. exact G.
Qed.
Lemma leak_take1 : forall l, leak (take l).
Proof. intros l h x P. inversion P; subst. exists [l]. cbn. constructor. constructor. Qed.

Create HintDb lk.
#[export] Hint Resolve leak_skip leak_seq leak_alt leak_many qleak_skip qleak_give qleak_alt qleak_seq leak_take leak_take1 : lk.

Lemma leak_setup : leak region_setup. Proof. unfold region_setup. auto with lk. Qed.
#[export] Hint Resolve leak_setup : lk.
Lemma leak_entry : leak region_get_entry. Proof. unfold region_get_entry. auto with lk. Qed.
#[export] Hint Resolve leak_entry : lk.
Lemma leak_entries : leak region_entries. Proof. unfold region_entries. auto with lk. Qed.
Lemma leak_mb : leak region_get_macro_bloc. Proof. unfold region_get_macro_bloc. auto with lk. Qed.
Lemma leak_delc : leak region_del_chain. Proof. unfold region_del_chain. auto 7 with lk. Qed.
Lemma leak_del : leak region_del. Proof. unfold region_del. auto 7 with lk. Qed.
#[export] Hint Resolve leak_entries leak_mb leak_delc leak_del : lk.
Lemma leak_delall : leak region_del_all. Proof. unfold region_del_all. auto with lk. Qed.
Lemma leak_sreq : forall w x, leak (source_request w x).
Proof.
  intros w [|s|s]; cbn [source_request]; auto with lk; unfold light_request, find_in_cache, dflt_request; auto 7 with lk.
  destruct (map_fails w); auto with lk.
Qed.
Lemma leak_sfree : forall x, leak (source_free x).
Proof. intros [|s|s]; cbn [source_free]; auto with lk; unfold light_free, reg_in_cache, dflt_free; auto 7 with lk. Qed.
Lemma leak_lclean : forall s, leak (light_cleanup s). Proof. intros. unfold light_cleanup. auto with lk. Qed.
Lemma leak_dclean : forall s, leak (dflt_cleanup s). Proof. intros. unfold dflt_cleanup. auto 7 with lk. Qed.
#[export] Hint Resolve leak_delall leak_sreq leak_sfree leak_lclean leak_dclean : lk.
Lemma leak_prep : forall c, leak (prepare_and_reg c).
Proof. intros. unfold prepare_and_reg. destruct (listed c); auto with lk. Qed.
#[export] Hint Resolve leak_prep : lk.
Lemma leak_req : forall w c, leak (request_mem w c).
Proof. intros. unfold request_mem. destruct (source c); auto with lk. Qed.
#[export] Hint Resolve leak_req : lk.
Lemma leak_locked : forall w c p, leak p -> leak (lock_chain c ;; p ;; unlock_chain w c).
Proof.
  intros. unfold lock_chain, unlock_chain. destruct (safe c); auto with lk. apply leak_take. apply qleak_seq; auto.
  destruct (flag_moves w); auto with lk.
Qed.
#[export] Hint Resolve leak_locked : lk.
Lemma leak_alloc : forall w c, leak (chain_alloc w c). Proof. intros. unfold chain_alloc. auto 7 with lk. Qed.
Lemma leak_fmb : forall h c, leak h -> leak (free_macro_bloc h c).
Proof. intros. unfold free_macro_bloc. destruct (listed c); destruct (dying c && safe c); auto 7 with lk. Qed.
#[export] Hint Resolve leak_alloc leak_fmb : lk.
Lemma leak_free_h : forall h w c, leak h -> leak (chain_free_h h w c). Proof. intros. unfold chain_free_h. auto 7 with lk. Qed.
#[export] Hint Resolve leak_free_h : lk.
Lemma leak_free : forall w egg c, leak (chain_free w egg c).
Proof. intros. unfold chain_free, destroy_handler. auto with lk. Qed.
#[export] Hint Resolve leak_free : lk.
Lemma leak_rmb : forall c, leak (realloc_macro_bloc c).
Proof. intros. unfold realloc_macro_bloc. destruct (listed c); auto with lk. Qed.
#[export] Hint Resolve leak_rmb : lk.
Lemma leak_realloc : forall w egg c, leak (chain_realloc w egg c). Proof. intros. unfold chain_realloc. auto 12 with lk. Qed.
Lemma leak_purge : forall w egg c, leak (purge_rfq w egg c). Proof. intros. unfold purge_rfq. auto with lk. Qed.
#[export] Hint Resolve leak_realloc leak_purge : lk.
Lemma leak_refill : forall c, leak (chain_user_refill c). Proof. intros. unfold chain_user_refill. auto with lk. Qed.
Lemma leak_mark : forall w egg c, leak (mark_for_destroy w egg c). Proof. intros. unfold mark_for_destroy. auto with lk. Qed.
Lemma leak_destroy : forall c, leak (chain_destroy c).
Proof. intros. unfold chain_destroy. destruct (listed c); auto with lk. Qed.
Lemma leak_stat : forall c, leak (chain_get_stat c).
Proof. intros. unfold chain_get_stat, lock_chain. destruct (safe c); auto with lk. Qed.
Lemma leak_glms : leak get_local_mm_source. Proof. unfold get_local_mm_source, round_robin. auto with lk. Qed.
#[export] Hint Resolve leak_refill leak_mark leak_destroy leak_stat leak_glms : lk.
Lemma leak_init : forall w egg, leak (base_init w egg). Proof. intros. unfold base_init. auto 15 with lk. Qed.
#[export] Hint Resolve leak_init : lk.
Lemma leak_tls : forall w egg, leak (get_tls w egg). Proof. intros. unfold get_tls, setup_tls_chain. auto with lk. Qed.
#[export] Hint Resolve leak_tls : lk.
Lemma leak_malloc : forall w egg c, leak (malloc w egg c). Proof. intros. unfold malloc. auto with lk. Qed.
Lemma leak_pfree : forall w egg c d, leak (free w egg c d). Proof. intros. unfold free. auto 8 with lk. Qed.
#[export] Hint Resolve leak_malloc leak_pfree : lk.
Lemma leak_prealloc : forall w egg c d, leak (realloc w egg c d). Proof. intros. unfold realloc. auto 12 with lk. Qed.
Lemma leak_lib : forall w egg c, leak (lib w egg c). Proof. intros. unfold lib. destruct (libs_malloc w); auto with lk. Qed.
#[export] Hint Resolve leak_prealloc leak_lib : lk.
Lemma leak_mcont : forall w egg c, leak (migrate_content w egg c). Proof. intros. unfold migrate_content. auto 8 with lk. Qed.
#[export] Hint Resolve leak_mcont : lk.
Lemma leak_migrate : forall w egg c, leak (numa_migrate w egg c). Proof. intros. unfold numa_migrate. auto 8 with lk. Qed.
Lemma leak_lmigrate : forall w egg c s, leak (light_migrate w egg c s). Proof. intros. unfold light_migrate. auto 8 with lk. Qed.
Lemma leak_open : forall w egg c, leak (open_pagemap w egg c). Proof. intros. unfold open_pagemap. auto 8 with lk. Qed.
Lemma leak_read : forall w egg c, leak (read_pagemap w egg c). Proof. intros. unfold read_pagemap. auto 8 with lk. Qed.
#[export] Hint Resolve leak_migrate leak_lmigrate leak_open leak_read : lk.
Lemma leak_cumul : forall w egg c, leak (numa_stat_cumul w egg c). Proof. intros. unfold numa_stat_cumul. auto 8 with lk. Qed.
#[export] Hint Resolve leak_cumul : lk.
Lemma leak_nstat : forall w egg c, leak (get_numa_stat w egg c). Proof. intros. unfold get_numa_stat. auto 8 with lk. Qed.
#[export] Hint Resolve leak_nstat : lk.

Lemma leak_good : forall w egg p, good_call w egg p -> leak p.
Proof. intros w egg p H. destruct H; auto with lk. Qed.
Lemma leak_any : forall w egg p, any_call w egg p -> leak p.
Proof. intros w egg p H. destruct H; auto with lk. eapply leak_good; eauto. Qed.
Lemma gives_any : forall w egg r, any w egg r -> exists e, gives [] r e.
Proof. intros w egg r (p & C & P). destruct (leak_any w egg p C [] r P) as (e & G). rewrite app_nil_r in G. eauto. Qed.

(** ** The good paths are in order *)
Definition bal (m : nat) (p : prog) : Prop := forall h x, (forall y, In y h -> rank y < m) -> path p x -> follows h x h.

Lemma bal_skip : forall m, bal m Skip.
Proof. intros m h x B P. inversion P; subst. constructor. Qed.
Lemma bal_seq : forall m p q, bal m p -> bal m q -> bal m (p ;; q).
Proof. intros m p q A B h x H P. inversion P; subst. eapply follows_app; [apply A|apply B]; eassumption. Qed.
Lemma bal_alt : forall m p q, bal m p -> bal m q -> bal m (p or q).
Proof. intros m p q A B h x H P. inversion P; subst; [apply A|apply B]; assumption. Qed.
Lemma bal_many : forall m p, bal m p -> bal m (Many p).
Proof.
  intros m p A h x H P. remember (Many p) as k eqn:E. induction P; try discriminate E; injection E; intros; subst.
  - constructor.
  - eapply follows_app; [apply A; eassumption|apply IHP2; reflexivity].
Qed.
Lemma bal_le : forall m n p, bal n p -> m <= n -> bal m p.
Proof. intros m n p A L h x H P. apply A; auto. intros y Y. specialize (H y Y). lia. Qed.
Lemma bal_under : forall m l p, bal (S (rank l)) p -> m <= rank l -> bal m (take l ;; p ;; give l).
Proof.
  intros m l p A L h x H P. inversion P; subst.
  match goal with K : path (take l) _ |- _ => inversion K; subst end.
  match goal with K : path (p ;; give l) _ |- _ => inversion K; subst end.
  match goal with K : path (give l) _ |- _ => inversion K; subst end.
  cbn [app]. constructor. { intros y Y. specialize (H y Y). lia. }
  eapply follows_app.
  - apply A; [|eassumption]. intros y [<-|Y]; [lia|]. specialize (H y Y). lia.
  - constructor. constructor.
Qed.
Lemma bal_pair : forall m l, m <= rank l -> bal m (take l ;; give l).
Proof.
  intros m l L h x H P. inversion P; subst.
  match goal with K : path (take l) _ |- _ => inversion K; subst end.
  match goal with K : path (give l) _ |- _ => inversion K; subst end.
  cbn [app]. constructor. { intros y Y. specialize (H y Y). lia. } constructor. constructor.
Qed.
Create HintDb bl.
#[export] Hint Resolve bal_skip bal_seq bal_alt bal_many bal_under bal_pair : bl.

Lemma bal_entry : forall m, m <= 4 -> bal m region_get_entry.
Proof. intros. unfold region_get_entry, region_setup. auto with bl. Qed.
#[export] Hint Resolve bal_entry : bl.
Lemma bal_entries : forall m, m <= 4 -> bal m region_entries. Proof. intros. unfold region_entries. auto with bl. Qed.
Lemma bal_mb : forall m, m <= 4 -> bal m region_get_macro_bloc. Proof. intros. unfold region_get_macro_bloc. auto with bl. Qed.
Lemma bal_delc : forall m, m <= 4 -> bal m region_del_chain. Proof. intros. unfold region_del_chain. auto with bl. Qed.
Lemma bal_del : forall m, m <= 4 -> bal m region_del. Proof. intros. unfold region_del. auto with bl. Qed.
#[export] Hint Resolve bal_entries bal_mb bal_delc bal_del : bl.
Lemma bal_delall : forall m, m <= 4 -> bal m region_del_all. Proof. intros. unfold region_del_all. auto with bl. Qed.
Lemma bal_sreq : forall w x m, map_fails w = false -> m <= 3 -> bal m (source_request w x).
Proof.
  intros w [|s|s] m F L; cbn [source_request]; auto with bl; unfold light_request, find_in_cache, dflt_request; auto with bl.
  rewrite F. auto with bl.
Qed.
Lemma bal_sfree : forall x m, m <= 3 -> bal m (source_free x).
Proof. intros [|s|s] m L; cbn [source_free]; auto with bl; unfold light_free, reg_in_cache, dflt_free; auto with bl. Qed.
Lemma bal_dclean : forall s m, m <= 3 -> bal m (dflt_cleanup s).
Proof. intros. unfold dflt_cleanup. apply bal_under; [|assumption]. cbn [rank]. auto with bl. Qed.
Lemma bal_prep : forall c m, m <= 4 -> bal m (prepare_and_reg c).
Proof. intros. unfold prepare_and_reg. destruct (listed c); auto with bl. Qed.
#[export] Hint Resolve bal_delall bal_sreq bal_sfree bal_dclean bal_prep : bl.
Lemma bal_req : forall w c m, map_fails w = false -> m <= 3 -> bal m (request_mem w c).
Proof. intros. unfold request_mem. assert (m <= 4) by lia. destruct (source c); auto with bl. Qed.
#[export] Hint Resolve bal_req : bl.

(** The rank of the lock of a chain. *)
Definition cr (c : chn) : nat := rank (LChain (cid c)).
Lemma cr_le : forall c, cr c <= 2.
Proof. intros. unfold cr. cbn. destruct (cid c); lia. Qed.
Lemma cr_ge : forall c, 1 <= cr c.
Proof. intros. unfold cr. cbn. destruct (cid c); lia. Qed.
Lemma cr_egg : forall c, cid c = 0 -> cr c = 2.
Proof. intros c E. unfold cr. rewrite E. reflexivity. Qed.
Lemma cr_other : forall c, cid c <> 0 -> cr c = 1.
Proof. intros c E. unfold cr. cbn. destruct (cid c); congruence. Qed.

Lemma bal_locked : forall w c p m, flag_moves w = false -> bal 3 p \/ bal (S (cr c)) p -> m <= cr c ->
  bal m (lock_chain c ;; p ;; unlock_chain w c).
Proof.
  intros w c p m F B L. assert (Q : bal (S (cr c)) p).
  { destruct B as [B|B]; [|assumption]. eapply bal_le; [eassumption|]. pose proof (cr_le c). lia. }
  unfold lock_chain, unlock_chain. rewrite F. destruct (safe c).
  - apply bal_under; [exact Q|exact L].
  - assert (bal m p) by (eapply bal_le; [exact Q|]; lia). auto with bl.
Qed.
Lemma bal_alloc : forall w c m, map_fails w = false -> flag_moves w = false -> m <= cr c -> bal m (chain_alloc w c).
Proof.
  intros w c m F G L. unfold chain_alloc. pose proof (cr_le c). assert (m <= 3) by lia.
  apply bal_alt; auto with bl. apply bal_alt; auto with bl. apply bal_locked; auto. left. auto with bl.
Qed.
Lemma bal_fmb : forall h c m, m <= 3 -> (dying c = true -> bal m h) -> bal m (free_macro_bloc h c).
Proof.
  intros h c m L H. unfold free_macro_bloc. assert (m <= 4) by lia. apply bal_alt; auto with bl.
  apply bal_seq; [destruct (listed c); auto with bl|]. apply bal_seq; auto with bl.
  destruct (dying c); [destruct (safe c)|]; cbn [andb]; auto with bl.
Qed.
Lemma bal_free_h : forall h w c m, flag_moves w = false -> m <= cr c -> (dying c = true -> bal (S (cr c)) h) ->
  bal m (chain_free_h h w c).
Proof.
  intros h w c m F L H. unfold chain_free_h. pose proof (cr_le c).
  assert (Q : bal (S (cr c)) (free_macro_bloc h c)) by (apply bal_fmb; [lia|exact H]).
  assert (Q' : bal m (free_macro_bloc h c)) by (eapply bal_le; [exact Q|]; lia).
  apply bal_alt; auto with bl. apply bal_alt; auto. apply bal_locked; auto. right. auto with bl.
Qed.
Lemma bal_free : forall w egg c, map_fails w = false -> flag_moves w = false -> egg_ok egg -> chn_ok c \/ c = egg ->
  bal (cr c) (chain_free w egg c).
Proof.
  intros w egg c F G (E0 & E1 & E2 & E3) C. unfold chain_free, destroy_handler. apply bal_free_h; auto.
  intros D. destruct C as [C | ->]; [|congruence]. rewrite (cr_other c C). apply bal_free_h; auto.
  - rewrite (cr_egg egg E0). lia.
  - congruence.
Qed.

Section Good.
Variables (w : world) (egg : chn).
Hypothesis F : map_fails w = false.
Hypothesis G : flag_moves w = false.
Hypothesis M : libs_malloc w = false.
Hypothesis E : egg_ok egg.

Lemma good_free : forall c m, chn_ok c \/ c = egg -> m <= cr c -> bal m (chain_free w egg c).
Proof. intros c m C L. eapply bal_le; [apply bal_free; assumption|exact L]. Qed.
Lemma good_realloc : forall c m, chn_ok c \/ c = egg -> m <= cr c -> bal m (chain_realloc w egg c).
Proof.
  intros c m C L. unfold chain_realloc. pose proof (cr_le c). assert (m <= 4) by lia.
  assert (A1 : bal m (chain_alloc w c)) by (apply bal_alloc; assumption).
  assert (A2 : bal m (chain_free w egg c)) by (apply good_free; assumption).
  assert (A3 : bal m (realloc_macro_bloc c)) by (unfold realloc_macro_bloc; destruct (listed c); auto with bl).
  auto 12 with bl.
Qed.
Lemma good_purge : forall c m, chn_ok c \/ c = egg -> m <= cr c -> bal m (purge_rfq w egg c).
Proof. intros. unfold purge_rfq. apply bal_many. apply good_free; assumption. Qed.
Lemma good_glms : forall m, m <= 5 -> bal m get_local_mm_source.
Proof. intros. unfold get_local_mm_source, round_robin. auto with bl. Qed.
Lemma good_init : bal 0 (base_init w egg).
Proof.
  unfold base_init. apply bal_alt; auto with bl. apply bal_under; [|cbn; lia]. cbn [rank].
  pose proof (cr_ge egg) as L. apply bal_alt; auto with bl. apply bal_seq; [apply bal_prep; lia|].
  apply bal_many. apply bal_alt; [apply bal_alloc; assumption|]. apply bal_alt; [apply good_free; auto|apply good_realloc; auto].
Qed.
Lemma good_tls : bal 0 (get_tls w egg).
Proof.
  unfold get_tls, setup_tls_chain. apply bal_alt; auto with bl. apply bal_seq; [apply good_init|].
  apply bal_seq; [apply bal_alloc; auto; lia|apply good_glms; lia].
Qed.
Lemma good_malloc : forall c, chn_ok c \/ c = egg -> bal 0 (malloc w egg c).
Proof.
  intros. unfold malloc. apply bal_seq; [apply good_tls|]. apply bal_seq; [apply good_purge; auto; lia|apply bal_alloc; auto; lia].
Qed.
Lemma good_pfree : forall c d, chn_ok c \/ c = egg -> chn_ok d \/ d = egg -> bal 0 (free w egg c d).
Proof.
  intros. unfold free. apply bal_seq; [apply good_tls|]. apply bal_seq; [apply good_purge; auto; lia|].
  apply bal_alt; auto with bl. apply bal_seq; [apply bal_mb; lia|]. apply bal_alt; auto with bl. apply good_free; auto; lia.
Qed.
Lemma good_bal : forall p, good_call w egg p -> bal 0 p.
Proof.
  destruct 1.
  - apply bal_alloc; auto; lia.
  - apply good_free; auto; lia.
  - apply good_realloc; auto; lia.
  - apply good_purge; auto; lia.
  - apply bal_prep; lia.
  - unfold mark_for_destroy. apply good_purge; [left; assumption|lia].
  - unfold chain_destroy. destruct (listed c); auto with bl. apply bal_delc; lia.
  - apply good_malloc; auto.
  - apply good_pfree; auto.
  - unfold realloc. apply bal_alt; [apply good_malloc; auto|]. apply bal_alt; [apply good_pfree; auto|].
    apply bal_seq; [apply good_tls|]. apply bal_seq; [apply bal_mb; lia|]. apply bal_alt; [apply good_realloc; auto; lia|].
    apply bal_seq; [apply good_malloc; auto|apply good_pfree; auto].
  - unfold numa_migrate, migrate_content, lib. rewrite M. apply bal_seq; [apply good_glms; lia|].
    apply bal_alt; auto with bl. apply bal_seq; auto with bl. apply bal_alt; auto with bl.
    apply bal_under; [|lia]. auto with bl.
  - unfold light_migrate, lib. rewrite M. apply bal_alt; auto with bl. apply bal_under; [|lia]. auto with bl.
  - apply bal_dclean; lia.
  - apply bal_delall; lia.
Qed.
Lemma good_follows : forall r, good w egg r -> follows [] r [].
Proof. intros r (p & C & P). apply (good_bal p C); [intros y []|exact P]. Qed.

(** ** No circle *)
Definition held_ok (s : st) (h : nat -> list lk) : Prop :=
  (forall t, follows (h t) (todo s t) []) /\ (forall t l, owner s l = Some t <-> In l (h t)) /\
  (forall t, NoDup (h t)) /\ exists n, forall t, n <= t -> todo s t = [].

Definition upd (h : nat -> list lk) (t : nat) (x : list lk) : nat -> list lk := fun y => if Nat.eqb y t then x else h y.

Lemma held_move : forall s s' h, held_ok s h -> mv s s' -> exists h', held_ok s' h'.
Proof.
  intros s s' h (A & B & C & n & D) Mv. inversion Mv as [s0 t l r T O|s0 t l r T]; subst.
  - exists (upd h t (l :: h t)). pose proof (A t) as P. rewrite T in P. inversion P; subst. split; [|split; [intros t1 l1; split|split]].
    + intros x. unfold upd, tdo; cbn [todo]. destruct (Nat.eqb_spec x t) as [->|N]; [assumption|apply A].
    + intros X. unfold own in X; cbn [owner] in X. unfold upd. unfold lk_eqb in X. destruct (lk_eq l1 l) as [->|N].
      * injection X; intros <-. rewrite Nat.eqb_refl. left. reflexivity.
      * apply B in X. destruct (Nat.eqb_spec t1 t) as [E1|]; [subst t1; right|]; assumption.
    + intros X. unfold own; cbn [owner]. unfold upd in X. unfold lk_eqb. destruct (lk_eq l1 l) as [->|N].
      * destruct (Nat.eqb_spec t1 t) as [E1|N']; [subst t1; reflexivity|]. apply B in X. congruence.
      * apply B. destruct (Nat.eqb_spec t1 t) as [E1|N']; [subst t1|assumption]. destruct X as [X|X]; [congruence|assumption].
    + intros x. unfold upd. destruct (Nat.eqb_spec x t) as [->|N]; [|apply C]. constructor; [|apply C].
      intros I. apply B in I. congruence.
    + exists n. intros x L. unfold tdo; cbn [todo]. destruct (Nat.eqb_spec x t) as [->|N]; [|apply D; exact L].
      specialize (D t L). rewrite T in D. discriminate D.
  - pose proof (A t) as P. rewrite T in P. inversion P as [| |h0 l3 x e P' Hh]; subst. exists (upd h t h0).
    pose proof (C t) as Nd. rewrite <- Hh in Nd. inversion Nd; subst. split; [|split; [intros t1 l2; split|split]].
    + intros x. unfold upd, tdo; cbn [todo]. destruct (Nat.eqb_spec x t) as [->|N]; [assumption|apply A].
    + intros X. unfold own in X; cbn [owner] in X. unfold upd. unfold lk_eqb in X. destruct (lk_eq l2 l) as [->|N]; [discriminate|].
      apply B in X. destruct (Nat.eqb_spec t1 t) as [E1|N']; [subst t1|assumption]. rewrite <- Hh in X.
      destruct X as [X|X]; [congruence|assumption].
    + intros X. unfold own; cbn [owner]. unfold upd in X. unfold lk_eqb. destruct (lk_eq l2 l) as [->|N].
      * exfalso. destruct (Nat.eqb_spec t1 t) as [E1|N']; [subst t1; auto|]. apply B in X.
        assert (Y : owner s l = Some t) by (apply B; rewrite <- Hh; left; reflexivity). congruence.
      * apply B. destruct (Nat.eqb_spec t1 t) as [E1|N']; [subst t1|assumption]. rewrite <- Hh. right. assumption.
    + intros x. unfold upd. destruct (Nat.eqb_spec x t) as [->|N]; [assumption|apply C].
    + exists n. intros x L. unfold tdo; cbn [todo]. destruct (Nat.eqb_spec x t) as [->|N]; [|apply D; exact L].
      specialize (D t L). rewrite T in D. discriminate D.
Qed.
Lemma follows_nil : forall h, follows h [] [] -> h = [].
Proof. intros h P. inversion P. reflexivity. Qed.
Lemma held_go : forall s s' h, held_ok s h -> goes lk lk_eqb (good w egg) s s' -> exists h', held_ok s' h'.
Proof.
  intros s s' h H Gs. inversion Gs as [s0 s1 Mv|s0 t r T Cl]; subst; [eapply held_move; eassumption|].
  destruct H as (A & B & C & n & D). exists h. split; [|split; [intros t1 l1; split|split]].
  - intros x. unfold tdo; cbn [todo]. destruct (Nat.eqb_spec x t) as [->|N]; [|apply A].
    pose proof (A t) as P. rewrite T in P. apply follows_nil in P. rewrite P. apply good_follows. exact Cl.
  - intros X. apply B. exact X.
  - intros X. apply B. exact X.
  - apply C.
  - exists (Nat.max n (S t)). intros x L. unfold tdo; cbn [todo]. destruct (Nat.eqb_spec x t) as [->|N]; [lia|apply D; lia].
Qed.
Lemma held_gos : forall s s', goes_star lk lk_eqb (good w egg) s s' -> forall h, held_ok s h -> exists h', held_ok s' h'.
Proof.
  induction 1; intros h H'; [eauto|]. destruct (held_go _ _ _ H' H) as (h1 & H1). eapply IHgoes_star; eassumption.
Qed.
Lemma held_0 : held_ok o0 (fun _ => []).
Proof.
  split; [|split; [intros t1 l1; split|split]].
  - intros t. constructor.
  - intros X. discriminate X.
  - intros [].
  - intros t. constructor.
  - exists 0. reflexivity.
Qed.
Definition reach_g (s : st) : Prop := goes_star lk lk_eqb (good w egg) o0 s.
Lemma reach_held : forall s, reach_g s -> exists h, held_ok s h.
Proof. intros s R. eapply held_gos; [exact R|apply held_0]. Qed.

(** The thread that waits for the highest lock is not blocked. *)
Lemma rank_max : forall l, rank l <= 6.
Proof. destruct l as [|[|]| | | |]; cbn; lia. Qed.
Lemma climb : forall k s h t l r, held_ok s h -> todo s t = Take l :: r -> 7 <= k + rank l -> exists s', mv s s'.
Proof.
  induction k; intros s h t l r H T L; [pose proof (rank_max l); lia|].
  destruct H as (A & B & C & D). destruct (owner s l) as [t'|] eqn:O.
  - pose proof O as I. apply B in I. pose proof (A t') as P. destruct (todo s t') as [|[l2|l2] r2] eqn:T2.
    + apply follows_nil in P. rewrite P in I. destruct I.
    + inversion P; subst. apply (IHk s h t' l2 r2); [split; [|split; [|split]]; assumption|exact T2|].
      match goal with K : forall y, In y _ -> _ |- _ => specialize (K l I) end. lia.
    + eexists. eapply m_give. exact T2.
  - eexists. eapply m_take; eassumption.
Qed.
Lemma progress : forall s h t, held_ok s h -> todo s t <> [] -> exists s', mv s s'.
Proof.
  intros s h t H N. destruct (todo s t) as [|[l|l] r] eqn:T; [congruence| |].
  - apply (climb 7 s h t l r H T). lia.
  - eexists. eapply m_give. exact T.
Qed.

(** Operations left. *)
Fixpoint left (f : nat -> list opl) (n : nat) : nat := match n with O => 0 | S k => length (f k) + left f k end.
Lemma left_out : forall f g n t, (forall x, x <> t -> g x = f x) -> n <= t -> left g n = left f n.
Proof. induction n; intros t Hx L; cbn [left]; [reflexivity|]. rewrite (Hx n) by lia. rewrite (IHn t); [reflexivity|assumption|lia]. Qed.
Lemma left_in : forall f g n t, (forall x, x <> t -> g x = f x) -> t < n -> S (length (g t)) = length (f t) -> S (left g n) = left f n.
Proof.
  induction n; intros t Hx L K; [lia|]. cbn [left]. destruct (Nat.eq_dec n t) as [->|N].
  - rewrite (left_out f g t t Hx) by lia. lia.
  - rewrite (Hx n N). rewrite <- (IHn t); [lia|assumption|lia|assumption].
Qed.
Lemma left_move : forall s s' n, (forall t, n <= t -> todo s t = []) -> mv s s' -> S (left (todo s') n) = left (todo s) n.
Proof.
  intros s s' n D Mv. inversion Mv as [s0 t l r T O|s0 t l r T]; subst; cbn [todo];
  (apply (left_in _ _ n t);
   [ intros x N; unfold tdo; apply Nat.eqb_neq in N; rewrite N; reflexivity
   | destruct (le_lt_dec n t) as [L|L]; [specialize (D t L); rewrite T in D; discriminate D|exact L]
   | unfold tdo; rewrite Nat.eqb_refl, T; reflexivity ]).
Qed.
Lemma some_left : forall f n, (forall t, n <= t -> f t = ([] : list opl)) -> (forall t, f t = []) \/ exists t, f t <> [].
Proof.
  induction n; intros D; [left; intros t; apply D; lia|]. destruct (f n) as [|o r] eqn:X.
  - apply IHn. intros t L. destruct (Nat.eq_dec t n) as [->|N]; [exact X|apply D; lia].
  - right. exists n. congruence.
Qed.
Lemma finish : forall k s h, held_ok s h -> (exists n, (forall t, n <= t -> todo s t = []) /\ left (todo s) n <= k) ->
  exists s', mvs s s' /\ all_out lk s'.
Proof.
  assert (Out : forall s h, held_ok s h -> (forall t, todo s t = []) -> all_out lk s).
  { intros s h (A & B & C) Z. split; [exact Z|]. intros l. destruct (owner s l) as [t|] eqn:O; [|reflexivity].
    apply B in O. pose proof (A t) as P. rewrite Z in P. apply follows_nil in P. rewrite P in O. destruct O. }
  induction k; intros s h H (n & D & L).
  - destruct (some_left (todo s) n D) as [Z|(t & N)]; [exists s; split; [constructor|eapply Out; eassumption]|].
    destruct (progress s h t H N) as (s1 & Mv). pose proof (left_move s s1 n D Mv). lia.
  - destruct (some_left (todo s) n D) as [Z|(t & N)]; [exists s; split; [constructor|eapply Out; eassumption]|].
    destruct (progress s h t H N) as (s1 & Mv). pose proof (left_move s s1 n D Mv). destruct (held_move s s1 h H Mv) as (h1 & H1).
    assert (D1 : forall t, n <= t -> todo s1 t = []).
    { intros x Lx. inversion Mv as [s0 t0 l r T O|s0 t0 l r T]; subst; cbn [todo]; unfold tdo;
      (destruct (Nat.eqb_spec x t0) as [->|]; [specialize (D t0 Lx); congruence|apply D; exact Lx]). }
    destruct (IHk s1 h1 H1) as (s2 & R & Z); [exists n; split; [exact D1|lia]|].
    exists s2. split; [econstructor; eassumption|exact Z].
Qed.

Lemma no_deadlock : forall s t, reach_g s -> todo s t <> [] -> exists s', mv s s'.
Proof. intros s t R N. destruct (reach_held s R) as (h & H). eapply progress; eassumption. Qed.
Lemma calls_end : forall s, reach_g s -> exists s', mvs s s' /\ all_out lk s'.
Proof.
  intros s R. destruct (reach_held s R) as (h & H). pose proof H as (_ & _ & _ & n & D).
  eapply finish; [exact H|]. exists n. split; [exact D|]. apply le_n.
Qed.
Lemma follows_gives : forall h x e, follows h x e -> e = [] -> forall l, In l h -> In (Give l) x.
Proof.
  induction 1; intros Z y Y; subst.
  - destruct Y.
  - right. apply IHfollows; [reflexivity|]. right. exact Y.
  - destruct Y as [<-|Y]; [left; reflexivity|right; apply IHfollows; auto].
Qed.
Lemma owner_gives : forall s t l, reach_g s -> owner s l = Some t -> In (Give l) (todo s t).
Proof.
  intros s t l R O. destruct (reach_held s R) as (h & A & B & C). apply B in O.
  eapply follows_gives; [apply A|reflexivity|exact O].
Qed.
Lemma giver_owns : forall s t l r, reach_g s -> todo s t = Give l :: r -> owner s l = Some t.
Proof.
  intros s t l r R T. destruct (reach_held s R) as (h & A & B & C). apply B. pose proof (A t) as P. rewrite T in P.
  inversion P; subst. left. reflexivity.
Qed.
Lemma no_self : forall s t l r, reach_g s -> todo s t = Take l :: r -> owner s l <> Some t.
Proof.
  intros s t l r R T O. destruct (reach_held s R) as (h & A & B & C). apply B in O. pose proof (A t) as P. rewrite T in P.
  inversion P; subst. match goal with K : forall y, In y _ -> _ |- _ => specialize (K l O) end. lia.
Qed.
End Good.

(** ** What is never given back *)
Section Any.
Variables (w : world) (egg : chn).
Notation go := (goes lk lk_eqb (any w egg)).
Notation gos := (goes_star lk lk_eqb (any w egg)).

Definition hold (s : st) (h : nat -> list lk) : Prop :=
  (forall t, exists e, gives (h t) (todo s t) e) /\ (forall t l, In l (h t) -> owner s l = Some t) /\ (forall t, NoDup (h t)).

Lemma hold_0 : hold o0 (fun _ => []).
Proof. repeat split; intros; [exists []; constructor|contradiction|constructor]. Qed.
Lemma hold_reset : forall s h t, hold s h -> todo s t = [] -> hold s (upd h t []).
Proof.
  intros s h t (A & B & C) T. repeat split; intros x; unfold upd; destruct (Nat.eqb_spec x t) as [->|N].
  - rewrite T. exists []. constructor.
  - apply A.
  - intros l [].
  - apply B.
  - constructor.
  - apply C.
Qed.
Lemma hold_take : forall s h t l r, hold s h -> todo s t = Take l :: r -> owner s l = None ->
  hold (mkO (own lk lk_eqb s l (Some t)) (tdo lk s t r)) (upd h t (l :: h t)).
Proof.
  intros s h t l r (A & B & C) T O. split; [|split].
  - intros x. unfold upd, tdo; cbn [todo]. destruct (Nat.eqb_spec x t) as [->|N]; [|apply A].
    destruct (A t) as (e & P). rewrite T in P. exists e. inversion P; subst. assumption. 
  - intros x l1 X. unfold own; cbn [owner]. unfold upd in X. unfold lk_eqb. destruct (lk_eq l1 l) as [->|N].
    + destruct (Nat.eqb_spec x t) as [E1|N']; [subst x; reflexivity|]. apply B in X. congruence.
    + apply B. destruct (Nat.eqb_spec x t) as [E1|N']; [subst x|assumption]. destruct X as [X|X]; [congruence|assumption].
  - intros x. unfold upd. destruct (Nat.eqb_spec x t) as [->|N]; [|apply C]. constructor; [|apply C].
    intros I. apply B in I. congruence.
Qed.
Lemma hold_give : forall s h t l r, hold s h -> todo s t = Give l :: r ->
  In l (h t) /\ exists a, hold (mkO (own lk lk_eqb s l None) (tdo lk s t r)) (upd h t a) /\ (forall y, In y a -> In y (h t)).
Proof.
  intros s h t l r (A & B & C) T. destruct (A t) as (e & P). rewrite T in P. inversion P as [| |a b l1 x e1 P' Hh]; subst. rewrite ?Hh.
  pose proof (C t) as Nd. rewrite <- Hh in Nd. pose proof (NoDup_remove_1 _ _ _ Nd) as N1. pose proof (NoDup_remove_2 _ _ _ Nd) as N2.
  assert (I : In l (h t)) by (rewrite <- Hh; apply in_elt). split; [exact I|]. exists (a ++ b). split; [split; [|split]|].
  - intros y. unfold upd, tdo; cbn [todo]. destruct (Nat.eqb_spec y t) as [->|N]; [exists e; assumption|apply A].
  - intros y l0 X. unfold own; cbn [owner]. unfold upd in X. unfold lk_eqb. destruct (lk_eq l0 l) as [->|N].
    + exfalso. destruct (Nat.eqb_spec y t) as [E1|N']; [subst y; auto|]. apply B in X, I. congruence.
    + apply B. destruct (Nat.eqb_spec y t) as [E1|N']; [subst y|assumption]. rewrite <- Hh. apply in_app_iff in X. apply in_app_iff.
      destruct X; [left|right; right]; assumption.
  - intros y. unfold upd. destruct (Nat.eqb_spec y t) as [->|N]; [assumption|apply C].
  - intros y Y. rewrite <- Hh. apply in_app_iff in Y. apply in_app_iff. destruct Y; [left|right; right]; assumption.
Qed.
Lemma hold_call : forall s h t r, hold s h -> todo s t = [] -> any w egg r -> hold (mkO (owner s) (tdo lk s t r)) (upd h t []).
Proof.
  intros s h t r H T Cl. destruct (hold_reset s h t H T) as (A & B & C). repeat split; [|exact B|exact C].
  intros x. unfold upd, tdo; cbn [todo]. destruct (Nat.eqb_spec x t) as [->|N]; [eapply gives_any; exact Cl|].
  destruct (A x) as (e & P). unfold upd in P. apply Nat.eqb_neq in N. rewrite N in P. exists e. exact P.
Qed.
Definition reach_a (s : st) : Prop := gos o0 s.
Lemma hold_go : forall s s' h, hold s h -> go s s' -> exists h', hold s' h'.
Proof.
  intros s s' h H Gs. inversion Gs as [s0 s1 Mv|s0 t r T Cl]; subst.
  - inversion Mv as [s0 t l r T O|s0 t l r T]; subst.
    + eexists. apply (hold_take s h); assumption.
    + destruct (hold_give s h t l r H T) as (_ & a & K & _). eauto.
  - eexists. apply (hold_call s h); assumption.
Qed.
Lemma reach_hold : forall s, reach_a s -> exists h, hold s h.
Proof.
  assert (X : forall s s', gos s s' -> forall h, hold s h -> exists h', hold s' h').
  { induction 1; intros h H'; [eauto|]. destruct (hold_go _ _ _ H' H) as (h1 & H1). eapply IHgoes_star; eassumption. }
  intros s R. apply (X _ _ R _ hold_0).
Qed.

(** Locks of [X] are all taken, and a thread that could give one back waits for a lock of [X]. *)
Definition dead (s : st) (h : nat -> list lk) (X : lk -> Prop) : Prop :=
  hold s h /\ (forall l, X l -> owner s l <> None) /\
  (forall t l, X l -> In l (h t) -> exists l' r, todo s t = Take l' :: r /\ X l').
Lemma dead_go : forall s s' h X, dead s h X -> go s s' ->
  exists h', dead s' h' X /\ (forall t l r, todo s t = Take l :: r -> X l -> todo s' t = todo s t).
Proof.
  intros s s' h X (H & O & D) Gs. inversion Gs as [s0 s1 Mv|s0 t r T Cl]; subst.
  - inversion Mv as [s0 t l r T Ol|s0 t l r T]; subst.
    + exists (upd h t (l :: h t)). split; [split; [apply hold_take; assumption|split]|].
      * intros x Xx. unfold own; cbn [owner]. destruct (lk_eqb x l); [discriminate|apply O; exact Xx].
      * intros y x Xx I. unfold upd in I. unfold tdo; cbn [todo]. destruct (Nat.eqb_spec y t) as [->|N]; [|eapply D; eassumption].
        exfalso. destruct I as [->|I]; [apply (O x Xx Ol)|]. destruct (D t x Xx I) as (l' & r' & T' & X'). rewrite T in T'.
        injection T' as <- _. apply (O l X' Ol).
      * intros y x r' T' X'. unfold tdo; cbn [todo]. destruct (Nat.eqb_spec y t) as [->|N]; [|reflexivity].
        exfalso. rewrite T in T'. injection T' as <- _. apply (O l X' Ol).
    + destruct (hold_give s h t l r H T) as (I & a & K & S). exists (upd h t a). split; [split; [exact K|split]|].
      * intros x Xx. unfold own; cbn [owner]. unfold lk_eqb. destruct (lk_eq x l) as [->|N]; [|apply O; exact Xx].
        exfalso. destruct (D t l Xx I) as (l' & r' & T' & _). rewrite T in T'. discriminate T'.
      * intros y x Xx I'. unfold upd in I'. unfold tdo; cbn [todo]. destruct (Nat.eqb_spec y t) as [->|N]; [|eapply D; eassumption].
        exfalso. destruct (D t x Xx (S x I')) as (l' & r' & T' & _). rewrite T in T'. discriminate T'.
      * intros y x r' T' X'. unfold tdo; cbn [todo]. destruct (Nat.eqb_spec y t) as [->|N]; [|reflexivity].
        rewrite T in T'. discriminate T'.
  - exists (upd h t []). split; [split; [apply hold_call; assumption|split; [exact O|]]|].
    + intros y x Xx I'. unfold upd in I'. unfold tdo; cbn [todo]. destruct (Nat.eqb_spec y t) as [->|N]; [destruct I'|eapply D; eassumption].
    + intros y x r' T' X'. unfold tdo; cbn [todo]. destruct (Nat.eqb_spec y t) as [->|N]; [|reflexivity].
      rewrite T in T'. discriminate T'.
Qed.
Lemma dead_gos : forall s s', gos s s' -> forall h X, dead s h X ->
  exists h', dead s' h' X /\ (forall t l r, todo s t = Take l :: r -> X l -> todo s' t = todo s t).
Proof.
  induction 1; intros h X D; [exists h; split; [exact D|reflexivity]|].
  destruct (dead_go _ _ _ _ D H) as (h1 & D1 & K1). destruct (IHgoes_star h1 X D1) as (h2 & D2 & K2).
  exists h2. split; [exact D2|]. intros t l r T Xl. pose proof (K1 t l r T Xl) as T1. rewrite <- T1. apply (K2 t l r); [congruence|exact Xl].
Qed.
Lemma dead_lost : forall s h X l, dead s h X -> X l -> lost lk lk_eqb (any w egg) s l.
Proof. intros s h X l D Xl s' R. destruct (dead_gos s s' R h X D) as (h' & (_ & O & _) & _). apply O. exact Xl. Qed.
Lemma dead_stuck : forall s h X t l r, dead s h X -> todo s t = Take l :: r -> X l -> stuck lk lk_eqb (any w egg) s t.
Proof.
  intros s h X t l r D T Xl s' R. destruct (dead_gos s s' R h X D) as (h' & _ & K). split; [eapply K; eassumption|].
  rewrite T. discriminate.
Qed.

(** A lock kept by a thread that is outside the calls is never free again. *)
Lemma kept_dead : forall s t l, reach_a s -> owner s l = Some t -> todo s t = [] -> exists h, dead s h (fun x => x = l).
Proof.
  intros s t l R O T. destruct (reach_hold s R) as (h & H). pose proof (hold_reset s h t H T) as H'. exists (upd h t []).
  split; [exact H'|]. split; [intros x ->; congruence|]. intros y x -> I. exfalso. destruct H' as (_ & B & _).
  pose proof (B y l I) as Q. assert (y = t) by congruence. subst y. unfold upd in I. rewrite Nat.eqb_refl in I. destruct I.
Qed.
Lemma kept_lost : forall s t l, reach_a s -> owner s l = Some t -> todo s t = [] -> lost lk lk_eqb (any w egg) s l.
Proof. intros s t l R O T. destruct (kept_dead s t l R O T) as (h & D). eapply dead_lost; [exact D|reflexivity]. Qed.
Lemma lost_stuck : forall s l t r, lost lk lk_eqb (any w egg) s l -> todo s t = Take l :: r -> stuck lk lk_eqb (any w egg) s t.
Proof.
  intros s l t r L T s' R. rewrite T. split; [|discriminate]. revert T L. induction R as [s|s s1 s2 Gs R IH]; intros T L; [exact T|].
  assert (O : owner s l <> None) by (apply L; constructor).
  assert (T1 : todo s1 t = Take l :: r).
  { inversion Gs as [a b Mv|a x y Tx Cl]; subst.
    - inversion Mv as [a x l1 y Tx Ol|a x l1 y Tx]; subst; cbn [todo]; unfold tdo;
      (destruct (Nat.eqb_spec t x) as [->|]; [rewrite T in Tx; injection Tx; intros; subst; congruence || discriminate Tx|exact T]).
    - cbn [todo]. unfold tdo. destruct (Nat.eqb_spec t x) as [->|]; [congruence|exact T]. }
  apply IH; [exact T1|]. intros s3 R3. apply L. econstructor; eassumption.
Qed.
(** A thread that waits for a lock it took itself. *)
Lemma self_stuck : forall s t l r, reach_a s -> owner s l = Some t -> todo s t = Take l :: r ->
  stuck lk lk_eqb (any w egg) s t /\ lost lk lk_eqb (any w egg) s l.
Proof.
  intros s t l r R O T. destruct (reach_hold s R) as (h & H).
  assert (D : dead s h (fun x => x = l)).
  { split; [exact H|]. split; [intros x ->; congruence|]. intros y x -> I. destruct H as (_ & B & _). pose proof (B y l I) as Q.
    assert (y = t) by congruence. subst y. eauto. }
  split; [eapply dead_stuck; [exact D|exact T|reflexivity]|eapply dead_lost; [exact D|reflexivity]].
Qed.
(** Two threads that wait for each other. *)
Lemma two_stuck : forall s t u l m r q, reach_a s -> owner s l = Some t -> owner s m = Some u -> todo s t = Take m :: r ->
  todo s u = Take l :: q -> stuck lk lk_eqb (any w egg) s t /\ stuck lk lk_eqb (any w egg) s u.
Proof.
  intros s t u l m r q R Ol Om Tt Tu. destruct (reach_hold s R) as (h & H).
  assert (D : dead s h (fun x => x = l \/ x = m)).
  { split; [exact H|]. split; [intros x [->| ->]; congruence|]. intros y x Xx I. destruct H as (_ & B & _).
    pose proof (B y x I) as Q. destruct Xx as [->| ->].
    - assert (y = t) by congruence. subst y. eauto.
    - assert (y = u) by congruence. subst y. eauto. }
  split; [apply (dead_stuck s h _ t m r D Tt)|apply (dead_stuck s h _ u l q D Tu)]; [right|left]; reflexivity.
Qed.

(** A thread that is outside the calls does a call up to some point, alone. *)
Lemma start : forall s t r, reach_a s -> todo s t = [] -> any w egg r ->
  exists s', gos s s' /\ reach_a s' /\ todo s' t = r /\ owner s' = owner s /\ (forall u, u <> t -> todo s' u = todo s u).
Proof.
  intros s t r R T Cl. exists (mkO (owner s) (tdo lk s t r)).
  assert (G1 : go s (mkO (owner s) (tdo lk s t r))) by (apply g_call; assumption).
  repeat split; cbn [todo owner].
  - econstructor; [exact G1|constructor].
  - unfold reach_a in *. clear - R G1. induction R; [econstructor; [exact G1|constructor]|econstructor; [exact H|apply IHR; exact G1]].
  - unfold tdo. rewrite Nat.eqb_refl. reflexivity.
  - intros u N. unfold tdo. apply Nat.eqb_neq in N. rewrite N. reflexivity.
Qed.
Lemma gos_last : forall s s1 s2, gos s s1 -> go s1 s2 -> gos s s2.
Proof. intros s s1 s2 R Gs. induction R; [econstructor; [exact Gs|constructor]|econstructor; [exact H|apply IHR; exact Gs]]. Qed.
Lemma gos_trans : forall s s1 s2, gos s s1 -> gos s1 s2 -> gos s s2.
Proof. intros s s1 s2 R. induction R; intros; [assumption|econstructor; [exact H|auto]]. Qed.
Lemma do_take : forall s t l r, todo s t = Take l :: r -> owner s l = None ->
  exists s', gos s s' /\ todo s' t = r /\ owner s' l = Some t /\ (forall m, m <> l -> owner s' m = owner s m) /\
    (forall u, u <> t -> todo s' u = todo s u).
Proof.
  intros s t l r T O. exists (mkO (own lk lk_eqb s l (Some t)) (tdo lk s t r)). repeat split; cbn [todo owner].
  - econstructor; [apply g_move; apply m_take; eassumption|constructor].
  - unfold tdo. rewrite Nat.eqb_refl. reflexivity.
  - unfold own. rewrite lk_eqb_refl. reflexivity.
  - intros m N. unfold own. rewrite (lk_eqb_neq m l N). reflexivity.
  - intros u N. unfold tdo. apply Nat.eqb_neq in N. rewrite N. reflexivity.
Qed.
Lemma do_give : forall s t l r, todo s t = Give l :: r ->
  exists s', gos s s' /\ todo s' t = r /\ owner s' l = None /\ (forall m, m <> l -> owner s' m = owner s m) /\
    (forall u, u <> t -> todo s' u = todo s u).
Proof.
  intros s t l r T. exists (mkO (own lk lk_eqb s l None) (tdo lk s t r)). repeat split; cbn [todo owner].
  - econstructor; [apply g_move; apply m_give with (l := l); eassumption|constructor].
  - unfold tdo. rewrite Nat.eqb_refl. reflexivity.
  - unfold own. rewrite lk_eqb_refl. reflexivity.
  - intros m N. unfold own. rewrite (lk_eqb_neq m l N). reflexivity.
  - intros u N. unfold tdo. apply Nat.eqb_neq in N. rewrite N. reflexivity.
Qed.

(** A call that consists of taking a lock loses it. *)
Lemma lone_take : forall s t l, reach_a s -> todo s t = [] -> owner s l = None -> any w egg [Take l] ->
  exists s', gos s s' /\ todo s' t = [] /\ lost lk lk_eqb (any w egg) s' l.
Proof.
  intros s t l R T O Cl. destruct (start s t _ R T Cl) as (s1 & G1 & R1 & T1 & O1 & U1).
  destruct (do_take s1 t l [] T1) as (s2 & G2 & T2 & O2 & K2 & U2); [congruence|].
  exists s2. split; [eapply gos_trans; eassumption|]. split; [exact T2|]. apply (kept_lost s2 t); [|exact O2|exact T2].
  unfold reach_a. eapply gos_trans; eassumption.
Qed.
(** A call that takes a lock twice never ends. *)
Lemma double_take : forall s t l r, reach_a s -> todo s t = [] -> owner s l = None -> any w egg (Take l :: Take l :: r) ->
  exists s', gos s s' /\ stuck lk lk_eqb (any w egg) s' t /\ lost lk lk_eqb (any w egg) s' l.
Proof.
  intros s t l r R T O Cl. destruct (start s t _ R T Cl) as (s1 & G1 & R1 & T1 & O1 & U1).
  destruct (do_take s1 t l _ T1) as (s2 & G2 & T2 & O2 & K2 & U2); [congruence|].
  exists s2. split; [eapply gos_trans; eassumption|]. apply (self_stuck s2 t l r); [|exact O2|exact T2].
  unfold reach_a. eapply gos_trans; eassumption.
Qed.

(** ** The paths that break the rules *)
Lemma map_call : forall c s, map_fails w = true -> chn_ok c \/ c = egg -> source c = Dflt s -> any w egg [Take (LSrc s)].
Proof.
  intros c s F C S. exists (chain_alloc w c). split; [apply ac_good; apply gc_alloc; exact C|].
  unfold chain_alloc. apply p_right, p_left. unfold request_mem. rewrite S. cbn [source_request].
  change [Take (LSrc s)] with (([Take (LSrc s)] ++ []) ++ [] : list opl). apply p_seq; [|apply p_left; constructor].
  unfold dflt_request. rewrite F. apply p_seq; [constructor|]. apply p_left. constructor.
Qed.
Lemma clean_call : forall s, any w egg [Take (LSrc s)].
Proof. intros s. exists (light_cleanup s). split; [apply ac_lclean|]. unfold light_cleanup. constructor. Qed.
Lemma flag_call : forall c, flag_moves w = true -> chn_ok c \/ c = egg -> safe c = true -> any w egg [Take (LChain (cid c))].
Proof.
  intros c F C S. exists (chain_alloc w c). split; [apply ac_good; apply gc_alloc; exact C|].
  unfold chain_alloc. apply p_right, p_right. unfold lock_chain, unlock_chain. rewrite S, F.
  change [Take (LChain (cid c))] with ([Take (LChain (cid c))] ++ [] ++ [] : list opl). apply p_seq; [constructor|].
  apply p_seq; apply p_left; constructor.
Qed.
Lemma stat_call : forall c, safe c = true -> any w egg [Take (LChain (cid c)); Take (LChain (cid c))].
Proof.
  intros c S. exists (chain_get_stat c). split; [apply ac_stat|]. unfold chain_get_stat, lock_chain. rewrite S.
  change [Take (LChain (cid c)); Take (LChain (cid c))] with ([Take (LChain (cid c))] ++ [Take (LChain (cid c))] : list opl).
  apply p_seq; constructor.
Qed.
(** The path of a huge allocation that sets up a region, and of malloc. *)
Lemma region_path : path region_entries [Take LReg; Give LReg].
Proof.
  change [Take LReg; Give LReg] with (([Take LReg] ++ [Give LReg]) ++ [] : list opl). unfold region_entries.
  apply p_more; [|constructor]. apply p_right. unfold region_setup. apply p_seq; constructor.
Qed.
Lemma request_path : forall c s, source c = Light s -> listed c = true -> path (request_mem w c) [Take LReg; Give LReg].
Proof.
  intros c s S L. unfold request_mem. rewrite S. change [Take LReg; Give LReg] with ([] ++ [Take LReg; Give LReg] : list opl).
  apply p_seq; [apply p_left; constructor|]. unfold prepare_and_reg. rewrite L. apply p_right. apply region_path.
Qed.
Lemma malloc_path : forall c x, path (request_mem w c) x -> path (malloc w egg c) x.
Proof.
  intros c x P. change x with ([] ++ [] ++ x). unfold malloc. apply p_seq; [apply p_left; constructor|].
  apply p_seq; [apply p_none|]. unfold chain_alloc. apply p_right, p_left. exact P.
Qed.
Lemma nstat_call : forall c s, source c = Light s -> listed c = true ->
  any w egg (Take LReg :: Take LReg :: [Give LReg; Take LPage; Give LPage; Give LReg]).
Proof.
  intros c s S L. exists (get_numa_stat w egg c). split; [apply ac_nstat|].
  change (Take LReg :: Take LReg :: [Give LReg; Take LPage; Give LPage; Give LReg]) with
    ([] ++ [Take LReg] ++ ((([Take LReg; Give LReg] ++ [Take LPage] ++ [] ++ [Give LPage]) ++ []) ++ []) ++ [Give LReg] : list opl).
  unfold get_numa_stat. apply p_seq; [apply p_left; constructor|]. apply p_seq; [constructor|]. apply p_seq; [|constructor].
  apply p_more; [|apply p_none]. unfold numa_stat_cumul. apply p_seq; [|apply p_left; constructor].
  unfold read_pagemap. apply p_right. apply p_seq; [apply malloc_path; eapply request_path; eassumption|].
  apply p_seq; [constructor|]. apply p_seq; [|constructor]. unfold lib. destruct (libs_malloc w); [apply p_none|constructor].
Qed.
Lemma lib_path : forall c x, libs_malloc w = true -> path (request_mem w c) x -> path (lib w egg c) (x ++ []).
Proof.
  intros c x M P. unfold lib. rewrite M. apply p_more; [|apply p_none]. apply p_left. apply malloc_path. exact P.
Qed.
Lemma lmigrate_call : forall c s, libs_malloc w = true -> chn_ok c \/ c = egg -> source c = Light s ->
  any w egg (Take (LSrc s) :: Take (LSrc s) :: [Give (LSrc s); Give (LSrc s)]).
Proof.
  intros c s M C S. exists (light_migrate w egg c s). split; [apply ac_good; apply gc_lmigrate; exact C|].
  change (Take (LSrc s) :: Take (LSrc s) :: [Give (LSrc s); Give (LSrc s)]) with
    ([Take (LSrc s)] ++ (((([Take (LSrc s)] ++ [Give (LSrc s)]) ++ []) ++ []) ++ []) ++ [Give (LSrc s)] : list opl).
  unfold light_migrate. apply p_right. apply p_seq; [constructor|]. apply p_seq; [|constructor].
  apply p_more; [|apply p_none]. apply lib_path; [exact M|]. unfold request_mem. rewrite S.
  apply p_seq; [|apply p_left; constructor]. cbn [source_request]. apply p_right. unfold find_in_cache. apply p_seq; constructor.
Qed.
Lemma migrate_call : forall c s, libs_malloc w = true -> chn_ok c \/ c = egg -> source c = Light s -> listed c = true ->
  any w egg (Take LReg :: Take LReg :: [Give LReg; Give LReg]).
Proof.
  intros c s M C S L. exists (numa_migrate w egg c). split; [apply ac_good; apply gc_migrate; exact C|].
  change (Take LReg :: Take LReg :: [Give LReg; Give LReg]) with
    ([] ++ [] ++ [Take LReg] ++ (([Take LReg; Give LReg] ++ []) ++ []) ++ [Give LReg] : list opl).
  unfold numa_migrate. apply p_seq; [apply p_left; constructor|]. apply p_right. apply p_seq.
  { unfold lib. rewrite M. apply p_none. }
  unfold migrate_content. apply p_right. apply p_seq; [constructor|]. apply p_seq; [|constructor].
  apply p_more; [|apply p_none]. apply lib_path; [exact M|]. eapply request_path; eassumption.
Qed.
Lemma eggmark_call : egg_ok egg -> any w egg (Take (LChain 0) :: Take (LChain 0) ::
  (if flag_moves w then [] else [Give (LChain 0); Give (LChain 0)])).
Proof.
  intros (E0 & E1 & E2 & E3). exists (mark_for_destroy w egg egg). split; [apply ac_eggmark|].
  assert (U : path (unlock_chain w egg) (if flag_moves w then [] else [Give (LChain 0)])).
  { unfold unlock_chain. rewrite E1, E0. destruct (flag_moves w); [apply p_left|]; constructor. }
  assert (U' : path (unlock_chain w (mkC 0 true (listed egg) (source egg) true)) (if flag_moves w then [] else [Give (LChain 0)])).
  { unfold unlock_chain. cbn [safe cid]. destruct (flag_moves w); [apply p_left|]; constructor. }
  replace (Take (LChain 0) :: Take (LChain 0) :: (if flag_moves w then [] else [Give (LChain 0); Give (LChain 0)])) with
    (([Take (LChain 0)] ++ ([] ++ [] ++ ([Take (LChain 0)] ++ [] ++ (if flag_moves w then [] else [Give (LChain 0)])))
      ++ (if flag_moves w then [] else [Give (LChain 0)])) ++ [] : list opl) by (destruct (flag_moves w); reflexivity).
  unfold mark_for_destroy, purge_rfq. rewrite E0. apply p_more; [|apply p_none].
  unfold chain_free, chain_free_h at 1. apply p_right, p_right. apply p_seq; [unfold lock_chain; cbn [safe cid]; constructor|].
  apply p_seq; [|exact U']. apply p_right. unfold free_macro_bloc. apply p_right. cbn [listed source dying safe andb].
  apply p_seq; [destruct (listed egg); [apply p_none|constructor]|].
  apply p_seq; [destruct E3 as [->|(s & ->)]; cbn [source_free]; [constructor|apply p_right; constructor]|].
  apply p_right. unfold destroy_handler, chain_free_h. apply p_right, p_right.
  apply p_seq; [unfold lock_chain; rewrite E1, E0; constructor|]. apply p_seq; [apply p_left; constructor|exact U].
Qed.
(** The statistics of a chain that needs no new memory, and the statistics of a segment whose reading allocates. *)
Lemma nstat_page_call : forall c s, source c = Light s -> any w egg (Take LReg :: Take LPage :: [Give LPage; Give LReg]).
Proof.
  intros c s S. exists (get_numa_stat w egg c). split; [apply ac_nstat|].
  change (Take LReg :: Take LPage :: [Give LPage; Give LReg]) with
    ([] ++ [Take LReg] ++ ((([] ++ [Take LPage] ++ [] ++ [Give LPage]) ++ []) ++ []) ++ [Give LReg] : list opl).
  unfold get_numa_stat. apply p_seq; [apply p_left; constructor|]. apply p_seq; [constructor|]. apply p_seq; [|constructor].
  apply p_more; [|apply p_none]. unfold numa_stat_cumul. apply p_seq; [|apply p_left; constructor].
  unfold read_pagemap. apply p_right. apply p_seq.
  { apply malloc_path. unfold request_mem. rewrite S. change (@nil opl) with (@nil opl ++ []).
    apply p_seq; apply p_left; constructor. }
  apply p_seq; [constructor|]. apply p_seq; [|constructor]. unfold lib. destruct (libs_malloc w); [apply p_none|constructor].
Qed.
Lemma cumul_call : forall c s, libs_malloc w = true -> source c = Light s -> listed c = true ->
  any w egg (Take LPage :: Take LReg :: [Give LReg; Give LPage]).
Proof.
  intros c s M S L. exists (numa_stat_cumul w egg c). split; [apply ac_cumul|].
  change (Take LPage :: Take LReg :: [Give LReg; Give LPage]) with
    (([] ++ [Take LPage] ++ ([Take LReg; Give LReg] ++ []) ++ [Give LPage]) ++ [] : list opl).
  unfold numa_stat_cumul. apply p_seq; [|apply p_left; constructor]. unfold read_pagemap. apply p_right. apply p_seq.
  { apply malloc_path. unfold request_mem. rewrite S. change (@nil opl) with (@nil opl ++ []).
    apply p_seq; apply p_left; constructor. }
  apply p_seq; [constructor|]. apply p_seq; [|constructor]. apply lib_path; [exact M|]. eapply request_path; eassumption.
Qed.
Lemma circle : forall c s d z, libs_malloc w = true -> source c = Light s -> source d = Light z -> listed d = true ->
  forall st t u, reach_a st -> t <> u -> todo st t = [] -> todo st u = [] -> owner st LReg = None -> owner st LPage = None ->
  exists st', gos st st' /\ stuck lk lk_eqb (any w egg) st' t /\ stuck lk lk_eqb (any w egg) st' u.
Proof.
  intros c s d z M Sc Sd Ld st t u R N T U OR OP.
  destruct (start st t _ R T (nstat_page_call c s Sc)) as (s1 & G1 & R1 & T1 & O1 & K1).
  destruct (do_take s1 t LReg _ T1) as (s2 & G2 & T2 & O2 & P2 & K2); [congruence|].
  assert (R2 : reach_a s2) by (unfold reach_a; eapply gos_trans; eassumption).
  assert (U2 : todo s2 u = []) by (rewrite K2, K1; congruence).
  destruct (start s2 u _ R2 U2 (cumul_call d z M Sd Ld)) as (s3 & G3 & R3 & T3 & O3 & K3).
  destruct (do_take s3 u LPage _ T3) as (s4 & G4 & T4 & O4 & P4 & K4).
  { rewrite O3, P2, O1; [exact OP|discriminate]. }
  exists s4. split; [eapply gos_trans; [exact G1|]; eapply gos_trans; [exact G2|]; eapply gos_trans; eassumption|].
  eapply (two_stuck s4 t u LReg LPage).
  - unfold reach_a. eapply gos_trans; eassumption.
  - rewrite P4 by discriminate. rewrite O3. exact O2.
  - exact O4.
  - rewrite K4, K3 by congruence. exact T2.
  - exact T4.
Qed.
End Any.
