(** The functions with hooks compared with the ones without: same results, same memory byte for byte. *)
From Verif Require Import Word Res Mem SizeClassModel ChainModel ChainSpec Wp HookModel HookSpec.
From Coq Require Import ZArith List Bool Lia.
Import ListNotations.
Open Scope Z_scope.



Lemma same_refl s : same s s.
Proof. repeat split. Qed.
Lemma same_trans s t u : same s t -> same t u -> same s u.
Proof.
  intros (A1 & A2 & A3 & A4 & A5 & A6 & A7 & A8) (B1 & B2 & B3 & B4 & B5 & B6 & B7 & B8).
  split; [intros x; rewrite A1; apply B1|]. repeat split; congruence.
Qed.
Lemma same_sym s t : same s t -> same t s.
Proof. intros (A1 & A2 & A3 & A4 & A5 & A6 & A7 & A8). split; [intros x; symmetry; apply A1|]. repeat split; congruence. Qed.

Definition agree {A} (x y : res (A * st)) : Prop :=
  match x, y with
  | Ok (a, s), Ok (b, t) => a = b /\ same s t
  | UB, UB | Abort, Abort | OutOfFuel, OutOfFuel => True
  | _, _ => False
  end.
Definition resp {A} (x : M A) : Prop := forall s t, same s t -> agree (x s) (x t).

Lemma resp_ret {A} (a : A) : resp (ret a).
Proof. intros s t E. split; [reflexivity|exact E]. Qed.
Lemma resp_bind {A B} (x : M A) (f : A -> M B) : resp x -> (forall a, resp (f a)) -> resp (bind x f).
Proof.
  intros H1 H2 s t E. specialize (H1 s t E). unfold bind. unfold agree in H1 |- *.
  destruct (x s) as [[a s1]| | |], (x t) as [[b t1]| | |]; try contradiction; cbn; auto.
  destruct H1 as (<- & E1). exact (H2 a s1 t1 E1).
Qed.
Lemma resp_abort {A} : resp (@abort A). Proof. intros s t E. exact Logic.I. Qed.
Lemma resp_ub {A} : resp (@ub A). Proof. intros s t E. exact Logic.I. Qed.
Lemma resp_nofuel {A} : resp (@nofuel A). Proof. intros s t E. exact Logic.I. Qed.
Lemma resp_assume b : resp (assume b). Proof. destruct b; [apply resp_ret|apply resp_abort]. Qed.
Lemma resp_lift {A} (r : res A) : resp (lift r).
Proof. intros s t E. unfold lift, agree. destruct r; cbn; auto. Qed.
Lemma resp_load a n : resp (loadn a n).
Proof.
  intros s t E. unfold loadn, agree. destruct E as (E1 & E2 & E). rewrite E2. destruct (accb _ _ _); [|exact Logic.I].
  split; [apply ld_ext; intros x _; apply E1|]. exact (conj E1 (conj E2 E)).
Qed.
Lemma sto_same m m' n : forall a v, (forall x, m x = m' x) -> forall x, sto m a n v x = sto m' a n v x.
Proof.
  revert m m'. induction n as [|n IH]; intros m m' a v E x; cbn [sto]; [apply E|]. apply IH. intros y. unfold upd. rewrite E. reflexivity.
Qed.
Lemma resp_store a n v : resp (storen a n v).
Proof.
  intros s t E. unfold storen, agree. destruct E as (E1 & E2 & E). rewrite E2. destruct (accb _ _ _); [|exact Logic.I].
  split; [reflexivity|]. split; [|split; [exact E2|exact E]]. intros x. apply sto_same, E1.
Qed.
Lemma resp_modst f : (forall s t, same s t -> same (f s) (f t)) -> resp (modst f).
Proof. intros H s t E. split; [reflexivity|apply H, E]. Qed.
Lemma resp_cnt z : resp (modst (fun s => set_cnt s (scnt s + z))).
Proof. apply resp_modst. intros s t (A1 & A2 & A3 & A4 & A5 & A). cbn. repeat split; try congruence; cbn; try apply A1; try congruence; apply A. Qed.
Lemma resp_cnt' z : resp (modst (fun s => set_cnt s (scnt s - z))).
Proof. apply resp_modst. intros s t (A1 & A2 & A3 & A4 & A5 & A). cbn. repeat split; try congruence; cbn; try apply A1; try congruence; apply A. Qed.
Lemma resp_getst {B} (f : st -> M B) : (forall s t, same s t -> f s = f t) -> (forall s, resp (f s)) -> resp (bind getst f).
Proof.
  intros H1 H2 s t E. unfold bind, getst. cbn. rewrite (H1 s t E). apply H2, E.
Qed.
Lemma resp_memcpy a b n : resp (memcpy a b n).
Proof.
  intros s t E. unfold memcpy, agree. destruct E as (E1 & E2 & E). rewrite E2. destruct (_ && _); [|exact Logic.I].
  split; [reflexivity|]. split; [|split; [exact E2|exact E]]. intros x. cbn. rewrite !E1. reflexivity.
Qed.
Lemma resp_source_free g b : resp (source_free g b).
Proof.
  intros s t E. unfold source_free, agree. destruct E as (E1 & E2 & E3 & E4 & E5 & E6 & E7 & E8). rewrite E2.
  rewrite (ld_ext (smem t) (smem s) 7 b) by (intros x _; apply E1). rewrite (ld_ext (smem t) (smem s) 8 (b + 16)) by (intros x _; apply E1).
  destruct (_ && _); [|exact Logic.I]. split; [reflexivity|]. repeat split; cbn; congruence || apply E1.
Qed.

Create HintDb resp.
#[local] Hint Resolve resp_load resp_store resp_abort resp_ub resp_nofuel resp_assume resp_lift resp_memcpy resp_ret resp_source_free resp_cnt resp_cnt' : resp.
Ltac resp_step :=
  first [ solve [auto with resp nocore]
        | apply resp_bind; [|intros ?]
        | match goal with |- resp (if ?b then _ else _) => destruct b end
        | match goal with |- resp (match ?b with AtEnd => _ | AtStart => _ end) => destruct b end
        | progress cbv zeta
        | progress unfold get_size, set_size, set_addr, get_prevsize, set_prevsize, get_padding, set_padding, get_next, set_next, get_prev, set_prev, vsize, vprevsize, mark_status ].
Ltac resp_tac := intros; repeat resp_step.

Lemma resp_set_type v t : resp (set_type v t). Proof. unfold set_type. resp_tac. Qed.
Lemma resp_set_state v t : resp (set_state v t). Proof. unfold set_state. resp_tac. Qed.
Lemma resp_set_magic v t : resp (set_magic v t). Proof. unfold set_magic. resp_tac. Qed.
Lemma resp_get_type v : resp (get_type v). Proof. unfold get_type. resp_tac. Qed.
Lemma resp_get_state v : resp (get_state v). Proof. unfold get_state. resp_tac. Qed.
Lemma resp_get_magic v : resp (get_magic v). Proof. unfold get_magic. resp_tac. Qed.
#[local] Hint Resolve resp_set_type resp_set_state resp_set_magic resp_get_type resp_get_state resp_get_magic : resp.
Lemma resp_get_chunk v : resp (get_chunk v). Proof. unfold get_chunk. resp_tac. Qed.
Lemma resp_get_ptr v : resp (get_ptr v). Proof. unfold get_ptr. resp_tac. Qed.
#[local] Hint Resolve resp_get_chunk resp_get_ptr : resp.
Lemma resp_unpad v : resp (unpad_vchunk v). Proof. unfold unpad_vchunk. resp_tac. Qed.
#[local] Hint Resolve resp_unpad : resp.
Lemma resp_gcu v : resp (get_chunk_unpadded v). Proof. unfold get_chunk_unpadded. resp_tac. Qed.
Lemma resp_next_chunk v : resp (next_chunk v). Proof. unfold next_chunk. resp_tac. Qed.
Lemma resp_prev_chunk v : resp (prev_chunk v). Proof. unfold prev_chunk. resp_tac. Qed.
Lemma resp_setup_chunk a b c : resp (setup_chunk a b c). Proof. unfold setup_chunk. resp_tac. Qed.
Lemma resp_setup_padded a b : resp (setup_chunk_padded a b). Proof. unfold setup_chunk_padded. resp_tac. Qed.
Lemma resp_insert g a md : resp (free_list_insert g a md). Proof. unfold free_list_insert. resp_tac. Qed.
Lemma resp_remove g a : resp (free_list_remove g a). Proof. unfold free_list_remove. resp_tac. Qed.
#[local] Hint Resolve resp_gcu resp_next_chunk resp_prev_chunk resp_setup_chunk resp_setup_padded resp_insert resp_remove : resp.
Lemma resp_left g f : forall a b, resp (merge_left f g a b).
Proof. induction f as [|f IH]; intros a b; cbn [merge_left]; resp_tac. Qed.
Lemma resp_right g f : forall a b, resp (merge_right f g a b).
Proof. induction f as [|f IH]; intros a b; cbn [merge_right]; resp_tac. Qed.
#[local] Hint Resolve resp_left resp_right : resp.
Lemma resp_merge f g v : resp (merge_chunk f g v). Proof. unfold merge_chunk. resp_tac. Qed.
#[local] Hint Resolve resp_merge : resp.
Lemma resp_free_macro g v : resp (free_macro_bloc g v).
Proof. unfold free_macro_bloc. resp_tac. Qed.
#[local] Hint Resolve resp_free_macro : resp.
Lemma resp_free f g p : resp (chain_free f g p).
Proof.
  unfold chain_free. destruct (p =? 0); [resp_tac|]. apply resp_bind; [resp_tac|intros v]. destruct (v =? 0); [resp_tac|].
  apply resp_bind; [resp_tac|intros x]. apply resp_bind; [resp_tac|intros ?]. apply resp_bind; [resp_tac|intros z].
  destruct (is_huge g z); [resp_tac|]. apply resp_getst.
  - intros s t (_ & _ & E & _). rewrite E. reflexivity.
  - resp_tac.
Qed.

(** ** Writing the header of alignment twice changes nothing *)
Definition marks (q b : Z) : M unit := set_state q b ;;; set_type q T_PADDED ;;; set_magic q MAGIC.
Definition pad_of (v bd : Z) : Z :=
  let p1 := add64 (chunk_body v) SZ_PADDED in
  sub64 (if negb (p1 mod bd =? 0) then add64 p1 (bd - p1 mod bd) else p1) SZ_PADDED.
Definition pads (v bd : Z) : bool := (1 <? bd) && negb (v =? 0) && negb (chunk_body v mod bd =? 0).

Lemma bind_eq {A B} (x y : M A) (f h : A -> M B) s : x s = y s -> (forall a s', f a s' = h a s') -> bind x f s = bind y h s.
Proof. intros E1 E2. unfold bind. rewrite E1. destruct (y s) as [[a s']| | |]; cbn; auto. Qed.
Lemma bind_assoc {A B C} (x : M A) (f : A -> M B) (h : B -> M C) s : bind (bind x f) h s = bind x (fun a => bind (f a) h) s.
Proof. unfold bind. destruct (x s) as [[a s']| | |]; cbn; auto. Qed.

Lemma padded_eq v bd s : setup_chunk_padded v bd s =
  if pads v bd then (set_padding (pad_of v bd) (sub64 (pad_of v bd) (chunk_body v)) ;;; b <- get_state v ;; marks (pad_of v bd + 7) b ;;; ret (pad_of v bd + 7)) s
  else Ok (v, s).
Proof.
  unfold setup_chunk_padded, pads. destruct (1 <? bd), (v =? 0), (chunk_body v mod bd =? 0); cbn [andb negb]; try reflexivity.
  fold (pad_of v bd). apply bind_eq; [reflexivity|]. intros _ s1. apply bind_eq; [reflexivity|]. intros b s2. unfold marks.
  rewrite bind_assoc. apply bind_eq; [reflexivity|]. intros _ s3. rewrite bind_assoc. reflexivity.
Qed.

Lemma byte_get m q v : 0 <= v < 256 -> ld (sto m q 1 v) q 1 = v.
Proof. apply ld1_same. Qed.

Lemma marks_run q b s : accb (srng s) q 1 = true -> 0 <= b <= 1 ->
  exists s', marks q b s = Ok (tt, s') /\ same s' (set_mem s (upd (smem s) q (130 + 4 * b))).
Proof.
  intros Ha Hb. pose proof (ld1_range (smem s) q) as R. set (x := ld (smem s) q 1) in *.
  unfold marks, set_state, set_type, set_magic, bind, loadn, storen. cbn [Z.of_nat Pos.of_succ_nat rbind].
  rewrite Ha. cbn [rbind srng set_mem]. rewrite Ha. cbn [rbind srng set_mem smem]. rewrite Ha. cbn [rbind srng set_mem smem]. rewrite Ha. cbn [rbind srng set_mem smem].
  rewrite Ha. cbn [rbind srng set_mem smem]. rewrite Ha. cbn [rbind srng set_mem smem]. fold x.
  eexists. split; [reflexivity|]. split; [|repeat split].
  intros y. cbn [smem set_mem].
  unfold mk_info, i_type, i_state, i_magic, T_PADDED, MAGIC.
  rewrite (byte_get (smem s) q (x mod 4 + 4 * b + 8 * (x / 8))) by (clear - R Hb; lia).
  assert (E1 : ((x mod 4 + 4 * b + 8 * (x / 8)) / 4) mod 2 = b) by (clear - R Hb; lia).
  assert (E2 : (x mod 4 + 4 * b + 8 * (x / 8)) / 8 = x / 8) by (clear - R Hb; lia).
  rewrite E1, E2. rewrite byte_get by (clear - R Hb; lia).
  assert (E3 : (2 + 4 * b + 8 * (x / 8)) mod 4 = 2) by (clear - R Hb; lia).
  assert (E4 : ((2 + 4 * b + 8 * (x / 8)) / 4) mod 2 = b) by (clear - R Hb; lia).
  rewrite E3, E4. cbn [sto]. unfold upd. destruct (y =? q); [|reflexivity]. clear - Hb. lia.
Qed.

Lemma padded_run v bd s w s1 : setup_chunk_padded v bd s = Ok (w, s1) ->
  pads v bd = false /\ w = v /\ s1 = s \/
  pads v bd = true /\ w = pad_of v bd + 7 /\ exists b, 0 <= b <= 1 /\
    accb (srng s) (pad_of v bd) 7 = true /\ accb (srng s) v 1 = true /\ accb (srng s) (pad_of v bd + 7) 1 = true /\
    b = i_state (ld (sto (smem s) (pad_of v bd) 7 (sub64 (pad_of v bd) (chunk_body v))) v 1) /\
    same s1 (set_mem s (upd (sto (smem s) (pad_of v bd) 7 (sub64 (pad_of v bd) (chunk_body v))) (pad_of v bd + 7) (130 + 4 * b))).
Proof.
  rewrite padded_eq. destruct (pads v bd); intros E; [|injection E as <- <-; left; auto]. right. split; [reflexivity|].
  unfold set_padding in E. unfold bind at 1 in E. unfold storen in E. cbn [Z.of_nat Pos.of_succ_nat Pos.succ] in E.
  destruct (accb (srng s) (pad_of v bd) 7) eqn:A1; [|discriminate]. cbn [rbind] in E.
  unfold get_state in E. unfold bind at 1 2 in E. unfold loadn in E. cbn [Z.of_nat Pos.of_succ_nat srng set_mem smem] in E.
  destruct (accb (srng s) v 1) eqn:A2; [|discriminate]. cbn [rbind ret] in E.
  set (m1 := sto (smem s) (pad_of v bd) 7 _) in *. set (b := i_state (ld m1 v 1)) in *.
  assert (Hb : 0 <= b <= 1) by (unfold b, i_state; clear; lia).
  destruct (accb (srng s) (pad_of v bd + 7) 1) eqn:A3.
  - destruct (marks_run (pad_of v bd + 7) b (set_mem s m1) A3 Hb) as (s' & E1 & E2).
    unfold bind in E at 1. rewrite E1 in E. cbn in E. injection E as <- <-. split; [reflexivity|].
    exists b. split; [exact Hb|]. split; [reflexivity|]. split; [reflexivity|]. split; [reflexivity|]. split; [reflexivity|]. exact E2.
  - unfold marks, set_state in E. unfold bind at 1 2 3 in E. unfold loadn in E. cbn [Z.of_nat Pos.of_succ_nat srng set_mem smem] in E.
    rewrite A3 in E. discriminate.
Qed.

Lemma sto_inside m m' n : forall a v x, a <= x < a + Z.of_nat n -> sto m a n v x = sto m' a n v x.
Proof.
  revert m m'. induction n as [|n IH]; intros m m' a v x Hx; [lia|]. cbn [sto].
  destruct (Z.eq_dec x a) as [->|Hn]; [|apply IH; lia].
  rewrite !(sto_other _ n (a + 1) _ a) by lia. unfold upd. rewrite Z.eqb_refl. reflexivity.
Qed.

Lemma padded_twice v bd s w s1 : setup_chunk_padded v bd s = Ok (w, s1) ->
  exists s2, setup_chunk_padded v bd s1 = Ok (w, s2) /\ same s2 s1.
Proof.
  intros E. destruct (padded_run v bd s w s1 E) as [(P & -> & ->)|(P & -> & b & Hb & A1 & A2 & A3 & Eb & S1)].
  - exists s. split; [exact E|apply same_refl].
  - set (q := pad_of v bd) in *. set (pd := sub64 q (chunk_body v)) in *.
    destruct S1 as (Sm & Sr & Sx). cbn [srng set_mem smem] in Sr, Sm.
    set (m1 := sto (smem s) q 7 pd) in *.
    assert (K : forall x, sto (smem s1) q 7 pd x = smem s1 x).
    { intros x. destruct (Z_le_gt_dec q x) as [H1|H1]; [destruct (Z_lt_ge_dec x (q + 7)) as [H2|H2]|].
      - rewrite (Sm x). unfold upd. destruct (Z.eqb_spec x (q + 7)); [lia|]. apply sto_inside. change (Z.of_nat 7) with 7. lia.
      - apply sto_other. change (Z.of_nat 7) with 7. lia.
      - apply sto_other. lia. }
    rewrite padded_eq, P. fold q. fold pd. unfold set_padding. unfold bind at 1. unfold storen. change (Z.of_nat 7) with 7. rewrite Sr, A1. cbn [rbind].
    unfold get_state. unfold bind at 1 2. unfold loadn. change (Z.of_nat 1) with 1. cbn [srng set_mem smem]. rewrite Sr, A2. cbn [rbind ret].
    set (s1' := set_mem s1 (sto (smem s1) q 7 pd)).
    assert (B : i_state (ld (sto (smem s1) q 7 pd) v 1) = b).
    { rewrite (ld_ext (smem s1)) by (intros x _; apply K). cbn [ld]. rewrite (Sm v). unfold upd. destruct (Z.eqb_spec v (q + 7)).
      - unfold i_state. clear - Hb. lia.
      - rewrite Eb. cbn [ld]. reflexivity. }
    rewrite B. assert (A3' : accb (srng s1') (q + 7) 1 = true) by (cbn [srng set_mem s1']; rewrite Sr; exact A3).
    destruct (marks_run (q + 7) b s1' A3' Hb) as (s2 & E1 & E2). unfold bind. rewrite E1. cbn [rbind ret].
    exists s2. split; [reflexivity|]. apply (same_trans _ _ _ E2). split; [|repeat split].
    intros x. cbn [smem set_mem s1']. unfold upd. destruct (Z.eqb_spec x (q + 7)) as [->|]; [|apply K].
    rewrite (Sm (q + 7)). unfold upd. rewrite Z.eqb_refl. reflexivity.
Qed.

(** ** The functions without a header of alignment: the states are the same *)
Definition erase {A} (x : res (A * st * list hev)) (y : res (A * st)) : Prop :=
  match y with
  | Ok (a, s') => exists l, x = Ok (a, s', l)
  | UB => x = UB
  | Abort => x = Abort
  | OutOfFuel => x = OutOfFuel
  end.
Definition erases {A} (x : H A) (y : M A) : Prop := forall s, erase (x s) (y s).
Lemma er_bind_s {A B} (x : H A) (y : M A) (f : A -> H B) (h : A -> M B) s : erase (x s) (y s) ->
  (forall a s1, y s = Ok (a, s1) -> erase (f a s1) (h a s1)) -> erase (hbind x f s) (bind y h s).
Proof.
  intros H1 H2. unfold bind, hbind. unfold erase in H1. destruct (y s) as [[a s1]| | |]; cbn [rbind].
  - destruct H1 as (l & ->). cbn [rbind]. specialize (H2 a s1 eq_refl). unfold erase in H2 |- *. destruct (h a s1) as [[b s2]| | |]; cbn [rbind].
    + destruct H2 as (l2 & ->). cbn. eauto.
    + rewrite H2. reflexivity.
    + rewrite H2. reflexivity.
    + rewrite H2. reflexivity.
  - rewrite H1. reflexivity.
  - rewrite H1. reflexivity.
  - rewrite H1. reflexivity.
Qed.
Lemma er_up {A} (y : M A) : erases (up y) y.
Proof. intros s. unfold up, erase. destruct (y s) as [[a s']| | |]; cbn; eauto. Qed.
Lemma er_ret {A} (a : A) : erases (hret a) (ret a).
Proof. intros s. exists []. reflexivity. Qed.
Lemma er_bind {A B} (x : H A) (y : M A) (f : A -> H B) (h : A -> M B) : erases x y -> (forall a, erases (f a) (h a)) -> erases (hbind x f) (bind y h).
Proof. intros H1 H2 s. apply er_bind_s; [apply H1|]. intros a s1 _. apply H2. Qed.
(** A hook that only reads what was read before. *)
Definition silent (x : H unit) (s : st) : Prop := exists l, x s = Ok (tt, s, l).
Lemma silent_hook b x s : silent x s -> silent (hook b x) s.
Proof. intros H. destruct b; [exact H|]. exists []. reflexivity. Qed.
Lemma silent_emit e s : silent (emit e) s.
Proof. exists [e]. reflexivity. Qed.
Lemma hook_skip {B} (x : H unit) (f : H B) (y : M B) s : silent x s -> erase (f s) (y s) -> erase (hbind x (fun _ => f) s) (y s).
Proof.
  intros (l & E) H. unfold hbind. rewrite E. cbn [rbind]. unfold erase in H |- *. destruct (y s) as [[a s']| | |].
  - destruct H as (l2 & ->). cbn. eauto.
  - rewrite H. reflexivity.
  - rewrite H. reflexivity.
  - rewrite H. reflexivity.
Qed.
Lemma er_hook {B} (x : H unit) (f : H B) (y : M B) : (forall s, silent x s) -> erases f y -> erases (hbind x (fun _ => f)) y.
Proof. intros H1 H2 s. apply hook_skip; [apply H1|apply H2]. Qed.

Lemma er_free_macro k g v : erases (free_macro_bloc_h k g v) (free_macro_bloc g v).
Proof.
  unfold free_macro_bloc_h, free_macro_bloc. apply er_bind; [apply er_up|intros z]. destruct (negb _); [apply er_ret|].
  apply er_bind; [apply er_up|intros a]. apply er_hook; [|apply er_up]. intros s. apply silent_hook, silent_emit.
Qed.

Lemma load_state a n s x s' : loadn a n s = Ok (x, s') -> s' = s /\ loadn a n s = Ok (x, s).
Proof. unfold loadn. destruct (accb _ _ _); [|discriminate]. intros E. injection E as <- <-. auto. Qed.
Lemma checked_size v s z s' : (b <- get_state v ;; assume (b =? S_ALLOC) ;;; vsize v) s = Ok (z, s') -> s' = s /\ vsize v s = Ok (z, s).
Proof.
  intros E. unfold get_state in E. unfold bind at 1 2 in E. destruct (loadn v 1 s) as [[x s1]| | |] eqn:E1; try discriminate.
  destruct (load_state _ _ _ _ _ E1) as (-> & _). cbn [rbind ret] in E. unfold bind in E. destruct (i_state x =? S_ALLOC); [|discriminate].
  cbn [assume ret rbind] in E. exact (load_state _ _ _ _ _ E).
Qed.
Lemma silent_size v s z (e : Z -> hev) : vsize v s = Ok (z, s) -> silent (x <-- up (vsize v) ;; emit (e x)) s.
Proof. intros E. exists [e z]. unfold hbind, up. rewrite E. reflexivity. Qed.
Lemma size_state v s z s' : vsize v s = Ok (z, s') -> s' = s /\ vsize v s = Ok (z, s).
Proof. apply load_state. Qed.

Lemma free_assoc fuel g ptr s : chain_free fuel g ptr s =
  (if ptr =? 0 then ret tt
   else
    v <- get_chunk_unpadded ptr ;;
    if v =? 0 then assume (negb (cstrict g))
    else
      sz <- (b <- get_state v ;; assume (b =? S_ALLOC) ;;; vsize v) ;;
      if is_huge g sz then free_macro_bloc g v
      else
        v <- (s0 <- getst ;;
              (if negb (sbase s0 =? 0) then (get_chunk (sbase s0 + SZ_LARGE) ;;; ret tt) else ret tt) ;;;
              (if cmerge g then merge_chunk fuel g v else ret v)) ;;
        sz <- vsize v ;;
        if csrc g && (sz mod MACRO_BLOC =? MACRO_BLOC - SZ_MACRO - SZ_LARGE)
        then free_macro_bloc g v
        else free_list_insert g (large_of v) AtEnd) s.
Proof.
  unfold chain_free. destruct (ptr =? 0); [reflexivity|]. apply bind_eq; [reflexivity|]. intros v s1. destruct (v =? 0); [reflexivity|].
  rewrite bind_assoc. apply bind_eq; [reflexivity|]. intros b s2. rewrite bind_assoc. apply bind_eq; [reflexivity|]. intros _ s3.
  apply bind_eq; [reflexivity|]. intros z s4. destruct (is_huge g z); [reflexivity|]. rewrite bind_assoc. apply bind_eq; [reflexivity|].
  intros s0 s5. rewrite bind_assoc. reflexivity.
Qed.

Lemma er_free k fuel g p : erases (chain_free_h k fuel g p) (chain_free fuel g p).
Proof.
  intros s. rewrite free_assoc. unfold chain_free_h. destruct (p =? 0); [apply er_ret|].
  apply er_bind_s; [apply er_up|]. intros v s1 _. destruct (v =? 0); [apply er_up|].
  apply er_bind_s; [apply er_up|]. intros z s2 E. destruct (checked_size _ _ _ _ E) as (-> & Ez). destruct (is_huge g z).
  - apply (hook_skip _ (free_macro_bloc_h k g v)); [apply silent_hook, (silent_size v s1 z (fun x => HHugeFree p x)), Ez|apply er_free_macro].
  - eapply hook_skip; [apply silent_hook, (silent_size v s1 z (fun x => HFree p x)), Ez|].
    apply er_bind; [apply er_up|intros w]. apply er_bind; [apply er_up|intros zz]. destruct (_ && _); [apply er_free_macro|apply er_up].
Qed.

Lemma er_request k g gr n : erases (request_mem_h k g gr n) (request_mem g gr n).
Proof.
  unfold request_mem_h, request_mem. destruct (negb (csrc g)); [apply er_ret|]. cbv zeta. apply er_bind; [apply er_up|intros b].
  apply er_hook; [intros s; apply silent_hook, silent_emit|]. destruct (b =? 0); [apply er_ret|apply er_up].
Qed.
Lemma er_refill k g gr n : erases (refill_mem_h k g gr n) (refill_mem g gr n).
Proof. unfold refill_mem_h, refill_mem. apply er_bind; [apply er_request|intros v]. destruct (v =? 0); [apply er_ret|apply er_up]. Qed.

Lemma load_cases a n s : loadn a n s = UB \/ exists x, loadn a n s = Ok (x, s).
Proof. unfold loadn. destruct (accb _ _ _); eauto. Qed.

Lemma er_purge_loop k fuel g q : forall e, erases (purge_loop_h k fuel q g e) (purge_loop fuel q g e).
Proof.
  induction q as [|q IH]; intros e s; cbn [purge_loop_h purge_loop]; [apply er_up|]. destruct (e =? 0); [apply er_ret|].
  assert (K : erase ((n <-- up (loadn e 8) ;; p <-- up (loadn (e + 8) 8) ;; chain_free_h k fuel g p ;;> purge_loop_h k fuel q g n) s)
                    ((n <- loadn e 8 ;; p <- loadn (e + 8) 8 ;; chain_free fuel g p ;;; purge_loop fuel q g n) s)).
  { apply er_bind; [apply er_up|intros n]. apply er_bind; [apply er_up|intros p]. apply er_bind; [apply er_free|intros _]. apply IH. }
  destruct (load_cases (e + 8) 8 s) as [E2|(p & E2)].
  - destruct (k_entry k); cbn [hook].
    + assert (U : (n <- loadn e 8 ;; p <- loadn (e + 8) 8 ;; chain_free fuel g p ;;; purge_loop fuel q g n) s = UB).
      { unfold bind at 1. destruct (load_cases e 8 s) as [E1|(n & E1)]; rewrite E1; cbn [rbind]; [reflexivity|]. unfold bind at 1. rewrite E2. reflexivity. }
      rewrite U. cbn [erase]. unfold hbind at 1 2. unfold up at 1. rewrite E2. reflexivity.
    + eapply hook_skip; [exists []; reflexivity|exact K].
  - eapply hook_skip; [|exact K]. apply silent_hook. exists [HEntry p]. unfold hbind, up. rewrite E2. reflexivity.
Qed.

Lemma er_purge k fuel qfuel g : k_flush k = false -> erases (purge_rfq_h k fuel qfuel g) (purge_rfq fuel qfuel g).
Proof.
  intros Hk. unfold purge_rfq_h, purge_rfq. apply er_bind; [apply er_up|intros s]. destruct (rqh s =? 0); [apply er_ret|]. cbv zeta.
  apply er_bind; [apply er_up|intros _]. rewrite Hk. cbn [hook]. apply er_hook; [intros s0; exists []; reflexivity|]. apply er_purge_loop.
Qed.
(** With an empty queue the hooks do not matter. *)
Lemma purge_empty k fuel qfuel g s : rqh s = 0 -> purge_rfq_h k fuel qfuel g s = Ok (tt, s, []) /\ purge_rfq fuel qfuel g s = Ok (tt, s).
Proof. intros E. unfold purge_rfq_h, purge_rfq, hbind, bind, up, getst. cbn [rbind]. rewrite E. split; reflexivity. Qed.
Lemma count_never fuel e : forall cur cnt s a s', e <> 0 -> count_loop fuel e cur cnt s <> Ok (a, s').
Proof.
  induction fuel as [|f IH]; intros cur cnt s a s' He; cbn [count_loop]; [discriminate|]. destruct (Z.eqb_spec e 0) as [->|_]; [congruence|].
  unfold bind. destruct (load_cases cur 8 s) as [E|(n & E)]; rewrite E; cbn [rbind]; [discriminate|]. apply IH, He.
Qed.
Lemma flush_never k fuel qfuel g s r : k_flush k = true -> rqh s <> 0 -> purge_rfq_h k fuel qfuel g s <> Ok r.
Proof.
  intros Hk Hq. unfold purge_rfq_h. unfold hbind at 1. unfold up at 1. unfold getst at 1. cbn [rbind].
  destruct (Z.eqb_spec (rqh s) 0) as [|_]; [congruence|]. unfold hbind at 1. unfold up at 1. unfold modst at 1. cbn [rbind].
  rewrite Hk. cbn [hook]. unfold hbind at 1 2. unfold up at 1.
  destruct (count_loop qfuel (rqh s) (rqh s) 0 (set_rq s 0 0)) as [[a s']| | |] eqn:E; cbn [rbind]; try discriminate.
  exfalso. exact (count_never _ _ _ _ _ _ _ Hq E).
Qed.

(** ** Allocation *)
Definition hsame {A} (x : res (A * st * list hev)) (y : res (A * st)) : Prop :=
  match y with
  | Ok (a, s') => exists l t, x = Ok (a, t, l) /\ same t s'
  | UB => x = UB
  | Abort => x = Abort
  | OutOfFuel => x = OutOfFuel
  end.
Lemma hs_erase {A} (x : res (A * st * list hev)) y : erase x y -> hsame x y.
Proof. destruct y as [[a s]| | |]; cbn; auto. intros (l & E). exists l, s. split; [exact E|apply same_refl]. Qed.
Lemma hs_bind_s {A B} (x : H A) (y : M A) (f : A -> H B) (h : A -> M B) s : erase (x s) (y s) ->
  (forall a s1, y s = Ok (a, s1) -> hsame (f a s1) (h a s1)) -> hsame (hbind x f s) (bind y h s).
Proof.
  intros H1 H2. unfold bind, hbind. unfold erase in H1. destruct (y s) as [[a s1]| | |]; cbn [rbind].
  - destruct H1 as (l & ->). cbn [rbind]. specialize (H2 a s1 eq_refl). unfold hsame in H2 |- *. destruct (h a s1) as [[b s2]| | |]; cbn [rbind].
    + destruct H2 as (l2 & t & -> & E). cbn. eauto.
    + rewrite H2. reflexivity.
    + rewrite H2. reflexivity.
    + rewrite H2. reflexivity.
  - rewrite H1. reflexivity.
  - rewrite H1. reflexivity.
  - rewrite H1. reflexivity.
Qed.

Definition finish_h (hk : bool) (e : Z -> Z -> hev) (v boundary : Z) : H Z :=
  hook hk (p <-- hook_ptr v boundary ;; z <-- up (vsize v) ;; emit (e p z)) ;;>
  w <-- up (if 1 <? boundary then setup_chunk_padded v boundary else ret v) ;;
  hret (chunk_body w).
Definition finish (v boundary : Z) : M Z :=
  w <- (if 1 <? boundary then setup_chunk_padded v boundary else ret v) ;; ret (chunk_body w).

Definition okub (r : res (Z * st)) : Prop := match r with Ok _ | UB => True | _ => False end.
Lemma padded_okub v bd s : okub (setup_chunk_padded v bd s).
Proof.
  rewrite padded_eq. destruct (pads v bd); [|exact Logic.I].
  unfold set_padding. unfold bind at 1. unfold storen. destruct (accb _ _ _); [|exact Logic.I]. cbn [rbind].
  unfold get_state. unfold bind at 1 2. destruct (load_cases v 1 (set_mem s (sto (smem s) (pad_of v bd) 7 (sub64 (pad_of v bd) (chunk_body v))))) as [E|(b & E)]; rewrite E; cbn [rbind ret]; [exact Logic.I|].
  set (s1 := set_mem s _) in *. destruct (accb (srng s1) (pad_of v bd + 7) 1) eqn:A3.
  - assert (Hb : 0 <= i_state b <= 1) by (unfold i_state; clear; lia). destruct (marks_run _ _ _ A3 Hb) as (s2 & E2 & _).
    unfold bind. rewrite E2. exact Logic.I.
  - unfold marks, set_state. unfold bind at 1 2 3. unfold loadn. change (Z.of_nat 1) with 1. rewrite A3. exact Logic.I.
Qed.
Lemma padded_cases v bd s : (exists w s1, setup_chunk_padded v bd s = Ok (w, s1)) \/ setup_chunk_padded v bd s = UB.
Proof. pose proof (padded_okub v bd s) as K. destruct (setup_chunk_padded v bd s) as [[w s1]| | |]; try contradiction; [left; eauto|right; reflexivity]. Qed.

(** The end of an allocation: the size in the header is readable after the header of alignment is written. *)
Lemma vsize_acc v s z s' t : vsize v s = Ok (z, s') -> srng t = srng s -> exists z', vsize v t = Ok (z', t).
Proof. unfold vsize, get_size, loadn. intros E R. rewrite R. destruct (accb _ _ _); [eauto|discriminate]. Qed.

Lemma finish_same hk e v bd s z : vsize v s = Ok (z, s) \/ hk = false -> hsame (finish_h hk e v bd s) (finish v bd s).
Proof.
  intros Hz. unfold finish_h, finish. destruct hk; cbn [hook].
  2: { apply hs_erase. apply er_hook; [intros s0; exists []; reflexivity|]. apply er_bind; [apply er_up|intros w; apply er_ret]. }
  destruct Hz as [Hz|]; [|discriminate]. destruct (1 <? bd) eqn:Eb.
  - destruct (padded_cases v bd s) as [(w & s1 & E)|E].
    + destruct (padded_twice _ _ _ _ _ E) as (s2 & E2 & S2).
      assert (R : srng s1 = srng s).
      { destruct (padded_run _ _ _ _ _ E) as [(_ & _ & ->)|(_ & _ & b & _ & _ & _ & _ & _ & S)]; [reflexivity|]. destruct S as (_ & S & _). exact S. }
      destruct (vsize_acc v s z s s1 Hz R) as (z' & Ez).
      assert (X : (p <-- hook_ptr v bd ;; z <-- up (vsize v) ;; emit (e p z)) s = Ok (tt, s1, [e (chunk_body w) z'])).
      { unfold hook_ptr. rewrite Eb. unfold hbind, up. rewrite E. cbn [rbind]. cbn [hret rbind]. rewrite Ez. cbn. reflexivity. }
      unfold hbind at 1. rewrite X. cbn [rbind]. unfold hbind at 1. unfold up at 1. rewrite E2. cbn [rbind hret].
      unfold bind. rewrite E. cbn. eexists; eexists. split; [reflexivity|]. exact S2.
    + unfold bind. rewrite E. cbn [rbind hsame]. unfold hook_ptr. rewrite Eb. unfold hbind, up. rewrite E. reflexivity.
  - apply hs_erase. apply (hook_skip _ (w <-- up (ret v) ;; hret (chunk_body w)) (w <- ret v ;; ret (chunk_body w))).
    + exists [e (chunk_body v) z]. unfold hook_ptr. rewrite Eb. unfold hbind, up. cbn [ret rbind hret]. rewrite Hz. reflexivity.
    + apply er_bind; [apply er_up|intros w; apply er_ret].
Qed.
