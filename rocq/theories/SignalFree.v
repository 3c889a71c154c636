(** A handler that frees a block inside a free of a chain without lock. *)
From Verif Require Import Word Res Mem SizeClassModel ChainModel ChainSpec ChainRun ChainSplit SignalChain.
From Coq Require Import ZArith List Bool Lia.
Import ListNotations.
Open Scope Z_scope.

(** sctk_allocator.c:473-512: [sctk_alloc_free_list_insert] at the end of a list, up to the store to the old last chunk; gives the list. *)
Definition insert_begin (g : cfg) (a : Z) : M Z :=
  sz <- get_size a ;;
  i <- lift (insert_class sz) ;;
  let fl := flist g i in
  set_state (a + 15) S_FREE ;;;
  p <- get_prev fl ;; set_prev a p ;;;
  set_next a fl ;;;
  p <- get_prev fl ;; set_next p a ;;;
  ret fl.
(** sctk_allocator.c:513-531: the rest of it. *)
Definition insert_end (g : cfg) (a fl : Z) : M unit := set_prev fl a ;;; mark_status g fl 1.

Lemma insert_whole g a s : free_list_insert g a AtEnd s = bind (insert_begin g a) (insert_end g a) s.
Proof.
  unfold free_list_insert, insert_begin, insert_end. unfold bind. cbv zeta.
  destruct (get_size a s) as [[z s1]| | |]; cbn [rbind]; try reflexivity.
  destruct (lift (insert_class z) s1) as [[i s2]| | |]; cbn [rbind]; try reflexivity.
  destruct (set_state (a + 15) S_FREE s2) as [[u s3]| | |]; cbn [rbind]; try reflexivity.
  destruct (get_prev (flist g i) s3) as [[p s4]| | |]; cbn [rbind]; try reflexivity.
  destruct (set_prev a p s4) as [[u1 s5]| | |]; cbn [rbind]; try reflexivity.
  destruct (set_next a (flist g i) s5) as [[u2 s6]| | |]; cbn [rbind]; try reflexivity.
  destruct (get_prev (flist g i) s6) as [[p1 s7]| | |]; cbn [rbind]; try reflexivity.
  destruct (set_next p1 a s7) as [[u3 s8]| | |]; cbn [rbind]; reflexivity.
Qed.

(** The chunks that a search in the list [fl] can come to: [list->next], then [->next] (no code of its own in /repo). *)
Inductive onlist (s : st) (fl : Z) : Z -> Prop :=
| on_first : forall x, get_next fl s = Ok (x, s) -> onlist s fl x
| on_next : forall y x, onlist s fl y -> get_next y s = Ok (x, s) -> onlist s fl x.
(** Two places of the size of a free chunk are one or do not meet (no code of its own in /repo). *)
Definition apart (x y : Z) : Prop := x = y \/ x + 32 <= y \/ y + 32 <= x.

Lemma load_inv a n s v s' : loadn a n s = Ok (v, s') -> s' = s /\ accb (srng s) a (Z.of_nat n) = true /\ v = ld (smem s) a n.
Proof. unfold loadn. destruct (accb _ _ _); [|discriminate]. intros E. injection E as <- <-. repeat split. Qed.

Lemma ret_same {A} (x y : A) (s s' : st) : ret x s = Ok (y, s') -> y = x /\ s' = s.
Proof. intros H. injection H as <- <-. split; reflexivity. Qed.

(** What the two halves store. *)
Lemma begin_inv g a s l s1 z i : insert_begin g a s = Ok (l, s1) -> get_size a s = Ok (z, s) -> insert_class z = Ok i ->
  l = flist g i /\ exists v p, let fl := flist g i in let m1 := sto (smem s) (a + 15) 1 v in
  let m2 := sto (sto m1 (a + 24) 8 (ld m1 (fl + 24) 8)) (a + 16) 8 fl in p = ld m2 (fl + 24) 8 /\ i_state v = S_FREE /\ 0 <= v < 256 /\
  srng s1 = srng s /\ accb (srng s) (p + 16) 8 = true /\ accb (srng s) (a + 16) 8 = true /\ accb (srng s) (a + 15) 1 = true /\ smem s1 = sto m2 (p + 16) 8 a.
Proof.
  unfold insert_begin. cbv zeta. intros H GS IC. apply bind_inv in H as (z1 & s2 & H1 & H). rewrite GS in H1. injection H1 as <- <-.
  apply bind_inv in H as (i1 & s2 & H1 & H). unfold lift in H1. rewrite IC in H1. injection H1 as <- <-.
  apply bind_inv in H as (u & s2 & H1 & H). unfold set_state in H1. apply bind_inv in H1 as (b & s3 & H2 & H1).
  apply load_inv in H2 as (-> & _ & EB). apply store_inv in H1 as (A15 & ->).
  apply bind_inv in H as (p & s3 & H1 & H). apply load_inv in H1 as (-> & _ & ->).
  apply bind_inv in H as (u1 & s3 & H1 & H). apply store_inv in H1 as (_ & ->).
  apply bind_inv in H as (u2 & s3 & H1 & H). apply store_inv in H1 as (A16 & ->).
  apply bind_inv in H as (p & s3 & H1 & H). apply load_inv in H1 as (-> & _ & ->).
  apply bind_inv in H as (u3 & s3 & H1 & H). apply store_inv in H1 as (AP & ->). apply ret_same in H as (-> & ->).
  split; [reflexivity|]. cbn [srng smem set_mem Z.of_nat Pos.of_succ_nat Pos.succ] in *. exists (mk_info (i_type b) S_FREE (i_magic b)). cbv zeta. eexists. split; [reflexivity|].
  assert (B : 0 <= i_type b < 4) by (apply Z.mod_pos_bound; lia).
  assert (C : 0 <= i_magic b < 32).
  { assert (R := ld_range (smem s) 1 (a + 15)). rewrite <- EB in R. change (256 ^ Z.of_nat 1) with 256 in R. unfold i_magic. clear - R. split; [apply Z.div_pos; lia|apply Z.div_lt_upper_bound; lia]. }
  assert (D : 0 <= S_FREE < 2) by (unfold S_FREE; lia).
  split; [exact (i_state_mk _ _ _ B D)|]. split; [exact (mk_info_range _ _ _ B D C)|]. split; [reflexivity|]. split; [exact AP|]. split; [exact A16|]. split; [exact A15|]. reflexivity.
Qed.
Lemma end_inv g a fl s s' : insert_end g a fl s = Ok (tt, s') ->
  srng s' = srng s /\ smem s' = sto (sto (smem s) (fl + 24) 8 a) (cpool g + POOL_STATUS + list_id g fl) 1 1.
Proof.
  unfold insert_end. intros H. apply bind_inv in H as (u & s1 & H1 & H). apply store_inv in H1 as (_ & ->). unfold mark_status in H.
  apply store_inv in H as (_ & ->). split; reflexivity.
Qed.

Section Free.
Variables (g : cfg) (s : st) (a b i za zb fl fg : Z).
Hypothesis EF : fl = flist g i.
Hypothesis EG : fg = cpool g + POOL_STATUS + list_id g fl.
Hypothesis SZa : get_size a s = Ok (za, s).
Hypothesis CLa : insert_class za = Ok i.
Hypothesis SZb : get_size b s = Ok (zb, s).
Hypothesis CLb : insert_class zb = Ok i.
Hypothesis Ra : 0 <= a < 2 ^ 64.
Hypothesis Rb : 0 <= b < 2 ^ 64.
Hypothesis Rf : 0 <= fl < 2 ^ 64.
(** The chunks of the list, its head and the two blocks (no code of its own in /repo). *)
Definition node x := x = a \/ x = b \/ x = fl \/ onlist s fl x.
Hypothesis AP : forall x y, node x -> node y -> apart x y.
Hypothesis FG : forall x, node x -> fg < x \/ x + 32 <= fg.
Hypothesis AB : a <> b.
Hypothesis AF : a <> fl.
Hypothesis BF : b <> fl.
Hypothesis NA : ~ onlist s fl a.
Hypothesis NB : ~ onlist s fl b.
Hypothesis LAST : forall p, get_prev fl s = Ok (p, s) -> p = fl \/ onlist s fl p.

Lemma nd_a : node a.
Proof. left. reflexivity. Qed.
Lemma nd_b : node b. Proof. right; left. reflexivity. Qed.
Lemma nd_f : node fl. Proof. right; right; left. reflexivity. Qed.
Lemma two64 v : 0 <= v < 2 ^ 64 -> v mod 256 ^ Z.of_nat 8 = v.
Proof. intros H. apply Z.mod_small. change (256 ^ Z.of_nat 8) with (2 ^ 64). exact H. Qed.
Lemma get_next_of x s0 : accb (srng s0) (x + 16) 8 = true -> get_next x s0 = Ok (ld (smem s0) (x + 16) 8, s0).
Proof. intros A. unfold get_next, loadn. change (Z.of_nat 8) with 8. rewrite A. reflexivity. Qed.

Ltac far := unfold apart in *; cbn [Z.of_nat Pos.of_succ_nat Pos.succ]; lia.

(** The two calls, one inside the other. *)
Lemma both l s1 s2 s3 : insert_begin g a s = Ok (l, s1) -> free_list_insert g b AtEnd s1 = Ok (tt, s2) -> insert_end g a l s2 = Ok (tt, s3) ->
  l = fl /\ srng s3 = srng s /\ exists p, (p = fl \/ onlist s fl p) /\ get_next p s3 = Ok (b, s3) /\ get_next b s3 = Ok (fl, s3) /\ get_state (a + 15) s3 = Ok (S_FREE, s3) /\
  forall x, x = fl \/ onlist s fl x -> x <> p -> ld (smem s3) (x + 16) 8 = ld (smem s) (x + 16) 8.
Proof.
  intros H1 H2 H3.
  destruct (begin_inv g a s l s1 za i H1 SZa CLa) as (El & v & p & Ep & Sv & Rv & R1 & Ap & Aa & Aa15 & M1). rewrite <- EF in *. subst l.
  rewrite insert_whole in H2. apply bind_inv in H2 as (l & s11 & H2 & H2').
  assert (Qab := AP a b nd_a nd_b). assert (Qaf := AP a fl nd_a nd_f). assert (Qbf := AP b fl nd_b nd_f).
  assert (Fa := FG a nd_a). assert (Fb := FG b nd_b). assert (Ff := FG fl nd_f).
  assert (P24 : p = ld (smem s) (fl + 24) 8) by (rewrite Ep, !ld_sto_other by far; reflexivity).
  assert (Np : p = fl \/ onlist s fl p).
  { apply LAST. unfold insert_begin in H1. apply bind_inv in H1 as (z1 & t1 & G1 & H1). rewrite SZa in G1. injection G1 as <- <-.
    apply bind_inv in H1 as (i1 & t1 & G1 & H1). unfold lift in G1. rewrite CLa in G1. injection G1 as <- <-. cbv zeta in H1. rewrite <- EF in H1.
    apply bind_inv in H1 as (u & t1 & G1 & H1). unfold set_state in G1. apply bind_inv in G1 as (c & t2 & G2 & G1).
    apply load_st in G2. subst t2. apply store_inv in G1 as (_ & ->). apply bind_inv in H1 as (p1 & t1 & G1 & _).
    apply load_inv in G1 as (_ & AA & _). cbn [srng set_mem] in AA. unfold get_prev, loadn. rewrite AA, P24. reflexivity. }
  assert (NDp : node p) by (destruct Np as [->|O]; [exact nd_f|right; right; right; exact O]).
  assert (Qap := AP a p nd_a NDp). assert (Qbp := AP b p nd_b NDp). assert (Qfp := AP fl p nd_f NDp). assert (Fp := FG p NDp).
  assert (Nap : a <> p) by (destruct Np as [->|O]; [exact AF|intros ->; exact (NA O)]).
  assert (Nbp : b <> p) by (destruct Np as [->|O]; [exact BF|intros ->; exact (NB O)]).
  assert (SZ1 : get_size b s1 = Ok (zb, s1)).
  { unfold get_size in *. apply load_inv in SZb as (_ & AA & ->). unfold loadn. rewrite R1, AA, M1. f_equal. f_equal. rewrite !ld_sto_other by far. reflexivity. }
  destruct (begin_inv g b s1 l s11 zb i H2 SZ1 CLb) as (El & v2 & p2 & Ep2 & Sv2 & Rv2 & R2 & Ap2 & Ab & Ab15 & M2). rewrite <- EF in *. subst l.
  assert (E2 : p2 = p) by (rewrite Ep2, M1, P24, !ld_sto_other by far; reflexivity). rewrite E2 in M2, Ap2. clear Ep Ep2 E2.
  apply end_inv in H2' as (R3 & M3). apply end_inv in H3 as (R4 & M4). rewrite <- EG in *.
  assert (RR : srng s3 = srng s) by congruence.
  split; [reflexivity|]. split; [exact RR|]. exists p. split; [exact Np|].
  assert (V24 : ld (smem s1) (fl + 24) 8 = ld (smem s) (fl + 24) 8) by (rewrite M1, P24, !ld_sto_other by far; reflexivity).
  clear H1 H2 SZ1 SZa SZb LAST.
  remember (ld (sto (smem s) (a + 15) 1 v) (fl + 24) 8) as w1. remember (ld (sto (smem s1) (b + 15) 1 v2) (fl + 24) 8) as w2.
  clear Heqw1 Heqw2 V24 P24.
  assert (Sv1 : i_state (ld (sto (smem s) (a + 15) 1 v) (a + 15) 1) = S_FREE).
  { rewrite ld_sto_same. change (256 ^ Z.of_nat 1) with 256. rewrite Z.mod_small by exact Rv. exact Sv. }
  split; [|split; [|split]].
  - rewrite get_next_of by (rewrite RR; exact Ap). f_equal. f_equal. rewrite M4, ld_sto_other by far. rewrite ld_sto_other by far.
    rewrite M3, ld_sto_other by far. rewrite ld_sto_other by far. rewrite M2, ld_sto_same. apply two64. exact Rb.
  - rewrite get_next_of by (rewrite RR, <- R1; exact Ab). f_equal. f_equal. rewrite M4, !ld_sto_other by far. rewrite M3, !ld_sto_other by far.
    rewrite M2, ld_sto_other by far. rewrite ld_sto_same. apply two64. exact Rf.
  - unfold get_state, bind, loadn. rewrite RR. change (Z.of_nat 1) with 1. rewrite Aa15. cbn [rbind]. unfold ret. f_equal. f_equal.
    rewrite M4, !ld_sto_other by far. rewrite M3, !ld_sto_other by far. rewrite M2, !ld_sto_other by far. rewrite M1, ld_sto_other by far. rewrite ld_sto_other by far. rewrite ld_sto_other by far.
    exact Sv1.
  - intros x Hx Npx. assert (NDx : node x) by (destruct Hx as [->|O]; [exact nd_f|right; right; right; exact O]).
    assert (Qax := AP a x nd_a NDx). assert (Qbx := AP b x nd_b NDx). assert (Qfx := AP fl x nd_f NDx). assert (Qpx := AP p x NDp NDx). assert (Fx := FG x NDx).
    assert (Nax : a <> x) by (destruct Hx as [->|O]; [exact AF|intros ->; exact (NA O)]).
    assert (Nbx : b <> x) by (destruct Hx as [->|O]; [exact BF|intros ->; exact (NB O)]).
    clear Qab Qaf Qbf Fa Fb Ff Qap Qbp Qfp Fp Nap Nbp Sv1 Sv Rv Sv2 Rv2 Np Hx NDp NDx AP FG.
    rewrite M4, !ld_sto_other by far. rewrite M3, !ld_sto_other by far. rewrite M2, !ld_sto_other by far. rewrite M1, !ld_sto_other by far. reflexivity.
Qed.

Lemma inside l s1 s2 s3 : insert_begin g a s = Ok (l, s1) -> free_list_insert g b AtEnd s1 = Ok (tt, s2) -> insert_end g a l s2 = Ok (tt, s3) ->
  onlist s3 fl b /\ get_state (a + 15) s3 = Ok (S_FREE, s3) /\ forall x, onlist s3 fl x -> x <> a.
Proof.
  intros H1 H2 H3. destruct (both l s1 s2 s3 H1 H2 H3) as (_ & RR & p & Np & Xp & Xb & Sa & Old).
  assert (NX : forall x y, x = fl \/ onlist s fl x -> x <> p -> get_next x s = Ok (y, s) -> get_next x s3 = Ok (y, s3)).
  { intros x y Hx Np1 E. apply load_inv in E as (_ & AA & ->). unfold get_next, loadn. rewrite RR, AA, (Old x Hx Np1). reflexivity. }
  assert (UP : forall x, onlist s fl x -> onlist s3 fl x \/ onlist s3 fl p \/ p = fl).
  { intros x O. induction O as [x E|y x O IH E].
    - destruct (Z.eq_dec p fl) as [->|N]; [right; right; reflexivity|]. left. apply on_first. apply NX; [left; reflexivity|congruence|exact E].
    - destruct IH as [IH|IH]; [|right; exact IH]. destruct (Z.eq_dec y p) as [->|N]; [right; left; exact IH|].
      left. apply (on_next _ _ y); [exact IH|]. apply NX; [right; exact O|exact N|exact E]. }
  split; [|split; [exact Sa|]].
  - destruct Np as [->|O]; [apply on_first; exact Xp|]. destruct (UP p O) as [U|[U| ->]]; [exact (on_next _ _ p b U Xp)..|apply on_first; exact Xp].
  - assert (CL : forall x, onlist s3 fl x -> x = b \/ x = fl \/ onlist s fl x).
    { assert (ST : forall x y, x = fl \/ onlist s fl x -> get_next x s3 = Ok (y, s3) -> y = b \/ y = fl \/ onlist s fl y).
      { intros x y Hx E. destruct (Z.eq_dec x p) as [->|N]; [rewrite Xp in E; injection E as <-; left; reflexivity|].
        right; right. apply load_inv in E as (_ & AA & ->). rewrite (Old x Hx N). rewrite RR in AA.
        assert (E : get_next x s = Ok (ld (smem s) (x + 16) 8, s)) by (unfold get_next, loadn; rewrite AA; reflexivity).
        destruct Hx as [->|O]; [exact (on_first _ _ _ E)|exact (on_next _ _ x _ O E)]. }
      intros x O. induction O as [x E|y x O IH E]; [exact (ST fl x (or_introl eq_refl) E)|].
      destruct IH as [->|IH]; [rewrite Xb in E; injection E as <-; right; left; reflexivity|exact (ST y x IH E)]. }
    intros x O ->. destruct (CL a O) as [E|[E|E]]; [exact (AB E)|exact (AF E)|exact (NA E)].
Qed.
End Free.
