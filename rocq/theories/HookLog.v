(** The events tell the truth. *)
From Verif Require Import Word Res Mem SizeClassModel SizeClassProofs ChainModel Wp ChainInv ChainZip ChainPrim ChainOps ChainAlloc ChainSpec ChainCore ChainCoreFree ChainStep ChainQueue ChainRealloc ChainTrace ChainProps ChainEv ChainWalk HookModel HookErase HookAlloc HookSpec.
From Coq Require Import ZArith List Bool Lia Permutation.
Import ListNotations.
Open Scope Z_scope.

(** ** Logs of the pieces *)
Inductive pact := New (p z : Z) | Del (p z : Z).
Definition pact_of (e : hev) : list pact :=
  match e with
  | HAlloc _ p z _ | HHugeAlloc _ p z _ => [New p z]
  | HFree p z | HHugeFree p z => [Del p z]
  | _ => []
  end.
Definition pacts (l : list hev) : list pact := flat_map pact_of l.
Definition undo (a : pact) (l : list Z) : list Z := match a with New p _ => p :: l | Del p _ => filter (fun q => negb (q =? p)) l end.
Lemma pacts_app l1 l2 : pacts (l1 ++ l2) = pacts l1 ++ pacts l2.
Proof. apply flat_map_app. Qed.
Lemma told_app l L : told_blocks (l ++ L) = fold_right undo (told_blocks L) (pacts l).
Proof.
  induction l as [|e l IH]; [reflexivity|]. cbn [app told_blocks pacts flat_map]. fold (pacts l).
  destruct e; cbn [pact_of app fold_right undo]; rewrite IH; reflexivity.
Qed.

Definition noact {A} (x : H A) : Prop := forall s a s' l, x s = Ok (a, s', l) -> pacts l = [].
Lemma na_up {A} (y : M A) : noact (up y).
Proof. intros s a s' l E. unfold up in E. destruct (y s) as [[b t]| | |]; try discriminate. injection E as _ _ <-. reflexivity. Qed.
Lemma na_ret {A} (a : A) : noact (hret a).
Proof. intros s b s' l E. injection E as _ _ <-. reflexivity. Qed.
Lemma hbind_inv {A B} (x : H A) (f : A -> H B) s b s' l : hbind x f s = Ok (b, s', l) ->
  exists a s1 l1 l2, x s = Ok (a, s1, l1) /\ f a s1 = Ok (b, s', l2) /\ l = l2 ++ l1.
Proof.
  unfold hbind. destruct (x s) as [[[a s1] l1]| | |]; try discriminate. cbn [rbind]. intros E.
  destruct (f a s1) as [[[b2 s2] l2]| | |] eqn:E2; try discriminate. cbn [rbind] in E. injection E as -> -> <-.
  exists a, s1, l1, l2. auto.
Qed.
Lemma na_bind {A B} (x : H A) (f : A -> H B) : noact x -> (forall a, noact (f a)) -> noact (hbind x f).
Proof.
  intros H1 H2 s b s' l E. destruct (hbind_inv _ _ _ _ _ _ E) as (a & s1 & l1 & l2 & E1 & E2 & ->).
  rewrite pacts_app, (H1 _ _ _ _ E1), (H2 _ _ _ _ _ E2). reflexivity.
Qed.
Lemma na_hook b e : pact_of e = [] -> noact (hook b (emit e)).
Proof. intros He. destruct b; [|apply na_ret]. intros s a s' l E. injection E as _ _ <-. cbn. rewrite He. reflexivity. Qed.
Lemma na_free_macro k g v : noact (free_macro_bloc_h k g v).
Proof.
  unfold free_macro_bloc_h. apply na_bind; [apply na_up|intros z]. destruct (negb _); [apply na_ret|].
  apply na_bind; [apply na_up|intros a]. apply na_bind; [apply na_hook; reflexivity|intros _; apply na_up].
Qed.
Lemma na_request k g gr n : noact (request_mem_h k g gr n).
Proof.
  unfold request_mem_h. destruct (negb _); [apply na_ret|]. cbv zeta. apply na_bind; [apply na_up|intros b].
  apply na_bind; [apply na_hook; reflexivity|intros _]. destruct (b =? 0); [apply na_ret|apply na_up].
Qed.
Lemma na_fetch k fuel g gr n : noact (fetch_h k fuel g gr n).
Proof.
  unfold fetch_h. apply na_bind; [apply na_up|intros c]. destruct (c =? 0); [|apply na_ret].
  apply na_bind; [|intros ok; destruct ok; [apply na_up|apply na_ret]].
  unfold refill_mem_h. apply na_bind; [apply na_request|intros v]. destruct (v =? 0); [apply na_ret|apply na_up].
Qed.

(** A free of a block is announced once, with the size of its chunk. *)
Lemma free_log k fuel g p s v s' l : k_free k = true -> k_hfree k = true -> p <> 0 -> get_chunk_unpadded p s = Ok (v, s) -> v <> 0 ->
  chain_free_h k fuel g p s = Ok (tt, s', l) -> exists z, vsize v s = Ok (z, s) /\ pacts l = [Del p z].
Proof.
  intros K1 K2 Hp Hv Hv0 E. unfold chain_free_h in E. destruct (Z.eqb_spec p 0); [contradiction|].
  destruct (hbind_inv _ _ _ _ _ _ E) as (v' & s1 & l1 & l2 & E1 & E2 & ->). unfold up in E1. rewrite Hv in E1. injection E1 as <- <- <-.
  destruct (Z.eqb_spec v 0); [contradiction|]. rewrite app_nil_r.
  destruct (hbind_inv _ _ _ _ _ _ E2) as (z & s2 & l3 & l4 & E3 & E4 & ->).
  assert (X : s2 = s /\ vsize v s = Ok (z, s) /\ l3 = []).
  { unfold up in E3. destruct ((b <- get_state v;; assume (b =? S_ALLOC);;; vsize v) s) as [[y t]| | |] eqn:Ec; try discriminate.
    injection E3 as -> -> <-. destruct (checked_size _ _ _ _ Ec) as (-> & Ez). auto. }
  destruct X as (-> & Ez & ->). rewrite app_nil_r. exists z. split; [exact Ez|]. destruct (is_huge g z).
  - rewrite K2 in E4. destruct (hbind_inv _ _ _ _ _ _ E4) as (u & s3 & l5 & l6 & E5 & E6 & ->). rewrite pacts_app, (na_free_macro _ _ _ _ _ _ _ E6).
    cbn [hook] in E5. unfold hbind, up in E5. rewrite Ez in E5. cbn in E5. injection E5 as _ _ <-. reflexivity.
  - rewrite K1 in E4. destruct (hbind_inv _ _ _ _ _ _ E4) as (u & s3 & l5 & l6 & E5 & E6 & ->). rewrite pacts_app.
    assert (N : noact (v <-- up (s0 <- getst ;; (if negb (sbase s0 =? 0) then (get_chunk (sbase s0 + SZ_LARGE) ;;; ret tt) else ret tt) ;;; (if cmerge g then merge_chunk fuel g v else ret v)) ;;
        sz <-- up (vsize v) ;; if csrc g && (sz mod MACRO_BLOC =? MACRO_BLOC - SZ_MACRO - SZ_LARGE) then free_macro_bloc_h k g v else up (free_list_insert g (large_of v) AtEnd))).
    { apply na_bind; [apply na_up|intros w]. apply na_bind; [apply na_up|intros y]. destruct (_ && _); [apply na_free_macro|apply na_up]. }
    rewrite (N _ _ _ _ E6). cbn [hook] in E5. unfold hbind, up in E5. rewrite Ez in E5. cbn in E5. injection E5 as _ _ <-. reflexivity.
Qed.

(** An allocation is announced once, with the pointer returned. *)
Lemma up_inv {A} (x : M A) s a s' l : up x s = Ok (a, s', l) -> x s = Ok (a, s') /\ l = [].
Proof. unfold up. destruct (x s) as [[b t]| | |]; try discriminate. intros E. injection E as -> -> <-. auto. Qed.

Lemma finish_log e v bd s r s' l : (forall p z, pact_of (e p z) = [New p z]) -> finish_h true e v bd s = Ok (r, s', l) ->
  exists z x, pacts l = [New r z] /\ accb (srng s') x 7 = true /\ (r = 0 -> x < 0) /\
    (bd <= 1 -> s' = s /\ (v <> 0 -> r = v + 1) /\ ld (smem s) (v - 15) 7 = z).
Proof.
  intros He E. unfold finish_h in E. cbn [hook] in E. destruct (hbind_inv _ _ _ _ _ _ E) as (u & s1 & l1 & l2 & E1 & E2 & ->).
  destruct (hbind_inv _ _ _ _ _ _ E2) as (w & s2 & l3 & l4 & E3 & E4 & ->). injection E4 as <- <- <-.
  destruct (hbind_inv _ _ _ _ _ _ E1) as (p & s3 & l5 & l6 & E5 & E6 & ->). destruct (hbind_inv _ _ _ _ _ _ E6) as (z & s4 & l7 & l8 & E7 & E8 & ->).
  unfold emit in E8. injection E8 as _ -> <-. unfold hook_ptr in E5. destruct (hbind_inv _ _ _ _ _ _ E5) as (w2 & s5 & l9 & l10 & E9 & E10 & ->).
  unfold hret in E10. injection E10 as <- <- <-.
  apply up_inv in E3 as (E3 & ->). apply up_inv in E9 as (E9 & ->). apply up_inv in E7 as (E7 & ->).
  destruct (size_state _ _ _ _ E7) as (-> & _). cbn [app]. exists z.
  assert (AV : accb (srng s5) (v - 15) 7 = true /\ ld (smem s5) (v - 15) 7 = z).
  { unfold vsize, get_size, large_of, SZ_LARGE, loadn in E7. replace (v + 1 - 16) with (v - 15) in E7 by lia. cbn [Z.of_nat Pos.of_succ_nat Pos.succ] in E7.
    destruct (accb (srng s5) (v - 15) 7) eqn:Ea; [|discriminate]. split; [reflexivity|]. injection E7 as <-. reflexivity. }
  destruct (Z.ltb_spec 1 bd) as [Hb|Hb].
  - assert (S12 : srng s2 = srng s5 /\ w = w2).
    { destruct (padded_twice _ _ _ _ _ E9) as (t & Et & St). rewrite E3 in Et. injection Et as <- <-. split; [exact (proj1 (proj2 St))|reflexivity]. }
    destruct S12 as (R & <-). rewrite R. destruct (padded_run _ _ _ _ _ E9) as [(_ & -> & ->)|(_ & -> & b & _ & A1 & _ & _ & _ & S)].
    + exists (v - 15). split; [cbn; rewrite He; reflexivity|]. split; [exact (proj1 AV)|]. split; [|lia]. unfold chunk_body. destruct (Z.eqb_spec v 0); lia.
    + exists (pad_of v bd). split; [cbn; rewrite He; reflexivity|]. destruct S as (_ & S & _). cbn [srng set_mem] in S. rewrite S. split; [exact A1|].
      split; [|lia]. unfold chunk_body. destruct (Z.eqb_spec (pad_of v bd + 7) 0); lia.
  - unfold ret in E3, E9. injection E9 as <- <-. injection E3 as <- <-. exists (v - 15).
    split; [cbn; rewrite He; reflexivity|]. split; [exact (proj1 AV)|]. split; [unfold chunk_body; destruct (Z.eqb_spec v 0); lia|]. intros _.
    split; [reflexivity|]. split; [|exact (proj2 AV)]. unfold chunk_body. destruct (Z.eqb_spec v 0); [contradiction|reflexivity].
Qed.

Lemma alloc_log k fuel g gr d n s r s' l : k_alloc k = true -> k_halloc k = true -> (forall x, accb (srng s') x 7 = true -> 0 < x) ->
  alloc_align_h k fuel g gr d n s = Ok (r, s', l) ->
  r = 0 /\ pacts l = [] \/ r <> 0 /\ exists z, pacts l = [New r z] /\ (d <= 1 -> ld (smem s') (r - 16) 7 = z).
Proof.
  intros K1 K2 HP E. rewrite alloc_h_assoc in E.
  assert (FIN : forall e v t l2, (forall p z, pact_of (e p z) = [New p z]) -> finish_h true e v d t = Ok (r, s', l2) ->
    r <> 0 /\ exists z, pacts l2 = [New r z] /\ (d <= 1 -> ld (smem s') (r - 16) 7 = z)).
  { intros e v t l2 He Ef. destruct (finish_log _ _ _ _ _ _ _ He Ef) as (z & x & P & A & R & D). specialize (HP x A).
    assert (r <> 0) by (intros Hr; specialize (R Hr); lia). split; [assumption|]. exists z. split; [exact P|]. intros Hd. destruct (D Hd) as (-> & Rv & <-).
    destruct (Z.eq_dec v 0) as [->|Hv].
    - exfalso. apply H. unfold finish_h in Ef. cbn [hook] in Ef. destruct (hbind_inv _ _ _ _ _ _ Ef) as (u & s1 & l1 & l3 & E1 & E2 & _).
      destruct (hbind_inv _ _ _ _ _ _ E2) as (w & s2 & l4 & l5 & E3 & E4 & _). apply up_inv in E3 as (E3 & _). destruct (Z.ltb_spec 1 d); [lia|].
      unfold ret in E3. injection E3 as <- _. injection E4 as <- _. reflexivity.
    - rewrite (Rv Hv). f_equal. lia. }
  destruct (n =? 0); [left; injection E as <- _ <-; auto|]. rewrite K1, K2 in E. destruct (is_huge g (asz d n)).
  - destruct (hbind_inv _ _ _ _ _ _ E) as (v & s1 & l1 & l2 & E1 & E2 & ->). right.
    destruct (FIN (fun p z => HHugeAlloc (sub64 (asz d n) d) p z d) _ _ _ (fun p z => eq_refl) E2) as (Hr & z & P & D). split; [exact Hr|]. exists z. rewrite pacts_app, P, (na_request _ _ _ _ _ _ _ _ E1). split; [reflexivity|exact D].
  - destruct (hbind_inv _ _ _ _ _ _ E) as (c & s1 & l1 & l2 & E1 & E2 & ->). rewrite pacts_app, (na_fetch _ _ _ _ _ _ _ _ _ E1), app_nil_r.
    destruct (c =? 0); [left; unfold hret in E2; injection E2 as <- _ <-; auto|]. right.
    destruct (hbind_inv _ _ _ _ _ _ E2) as (v & s2 & l3 & l4 & E3 & E4 & ->). apply up_inv in E3 as (_ & ->). rewrite app_nil_r. exact (FIN (fun p z => HAlloc (asz d n) p z d) _ _ _ (fun p z => eq_refl) E4).
Qed.

(** ** Runs with hooks are runs *)
Lemma obs_eta o : mkObs (live o) (pend o) (segs o) = o. Proof. destruct o; reflexivity. Qed.
Lemma reach_store g s o m : reach g s o -> (forall x, m x = smem s x) -> reach g (set_mem (clear_ev s) m) o.
Proof.
  intros R Hm. pose proof (reach_step g s o 0 (OStore m) 0 (set_mem (clear_ev s) m) R (fun x _ => Hm x) eq_refl) as K. cbn [next sevs set_mem clear_ev fold_right] in K.
  rewrite obs_eta in K. exact K.
Qed.
Lemma reach_clear g s o : reach g s o -> reach g (clear_ev s) o.
Proof. intros R. apply (reach_store g s o (smem s)) in R; [|reflexivity]. exact R. Qed.
Lemma same_clear t s : same t s -> clear_ev t = set_mem (clear_ev s) (smem t).
Proof. intros (_ & E1 & E2 & E3 & E4 & E5 & E6 & _). unfold clear_ev, set_mem. cbn. rewrite E1, E2, E3, E4, E5, E6. reflexivity. Qed.

Lemma grants g s o c : valid g s o c -> grant_pos g c.
Proof.
  destruct c; cbn [valid grant_pos]; auto.
  - intros (_ & _ & _ & _ & R) b Hc Eb. exact (proj1 (R Hc b Eb)).
  - intros (_ & (_ & _ & _ & _ & R) & _) b Hc Eb. exact (proj1 (R Hc b Eb)).
Qed.
Lemma core_acc g s B A F x n : Core g s B A F -> accb (srng s) x n = true -> 0 < x.
Proof.
  intros C H. pose proof (iv_w _ _ _ _ (co_inv _ _ _ _ _ C)) as W.
  unfold accb in H. apply existsb_exists in H as ((b & z) & H1 & H2). rewrite (wd_rng _ _ _ _ W) in H1. apply in_app_or in H1 as [H1|[H1|[]]].
  - apply in_map_iff in H1 as (sg & E & H1). destruct (w_segok _ _ _ _ W _ H1) as (K & _). unfold segr in E. injection E as <- <-. lia.
  - injection H1 as <- <-. pose proof (wd_pool _ _ _ _ W). lia.
Qed.
Lemma good_acc g s o x n : reach g s o -> accb (srng s) x n = true -> 0 < x.
Proof. intros R. destruct (reach_good _ _ _ R) as (A & F & G). exact (core_acc _ _ _ _ _ _ _ (gd_core _ _ _ _ _ G)). Qed.
Lemma queue_head g s o : reach g s o -> (rqh s = 0 <-> pend o = []).
Proof.
  intros R. destruct (reach_good _ _ _ R) as (A & F & G). destruct (gd_queue _ _ _ _ _ G) as (Q & _). rewrite Q.
  destruct (pend o) as [|[p n d] l] eqn:E; cbn [map hd bp]; [tauto|]. split; [|discriminate]. intros ->. exfalso.
  pose proof (core_pos _ _ _ _ _ 0 n d (gd_core _ _ _ _ _ G)) as K. rewrite E in K. specialize (K ltac:(apply in_or_app; right; left; reflexivity)). lia.
Qed.
Lemma huge_asz g d n o gr : request_ok g o d n gr -> is_huge g (asz d n) = true -> csrc g = true /\ huge d n.
Proof.
  intros (R1 & R2 & R3 & _) H. assert (Hc : csrc g = true) by (unfold is_huge in H; destruct (csrc g); [reflexivity|discriminate]). split; [exact Hc|].
  apply pow2_bd in R2. pose proof S63_val as BS. pose proof W64_val as BW.
  assert (E : asz d n = padsz d n) by (unfold asz, padsz, add64, w64; destruct (1 <? d); [|reflexivity]; apply Z.mod_small; lia).
  rewrite E, huge_iff in H; try lia; try assumption. unfold huge. lia.
Qed.
Lemma not_broken k g s o c : reach g s o -> valid g s o c -> ~ broken k g o c -> quiet k g s c.
Proof.
  intros R V B. destruct c as [d n gr|p|h p n gr|b z|x v|p| |m]; cbn [quiet broken valid] in *; auto.
  - intros Hk (Hn & Hh & ->). apply B. destruct (huge_asz _ _ _ _ _ V Hh) as (H1 & H2). auto.
  - destruct V as (_ & V & _). intros Hk (Hn & Hh & ->). apply B. destruct (huge_asz _ _ _ _ _ V Hh) as (H1 & H2). auto.
  - intros Hk. destruct (pend o) eqn:E; [apply (queue_head _ _ _ R); exact E|]. exfalso. apply B. split; [exact Hk|discriminate].
Qed.

Lemma quiet_step k g s o c fuel : reach g s o -> valid g s o c -> fuel_ok g o c fuel -> quiet k g s c ->
  exists r s' t l, step fuel g c s = Ok (r, s') /\ step_h k fuel g c s = Ok (r, t, l) /\ same t s'.
Proof.
  intros R V HF Q. destruct (step_runs g s o c fuel R V HF) as (r & s' & E & _). unfold step in E.
  pose proof (exec_same k fuel g c (clear_ev s) (grants _ _ _ _ V) Q) as K. unfold hsame in K. rewrite E in K. destruct K as (l & t & K1 & K2).
  exists r, s', t, l. auto.
Qed.

Lemma low_acc g s o : reach g s o -> accb (srng s) (-15) 7 = false.
Proof. intros R. destruct (accb (srng s) (-15) 7) eqn:E; [|reflexivity]. pose proof (good_acc _ _ _ _ _ R E). lia. Qed.


(** If the call with hooks returns, the call without them does as well. *)
Lemma bind_ok {A B} (x : M A) (f : A -> M B) s a s1 : x s = Ok (a, s1) -> bind x f s = f a s1.
Proof. intros E. unfold bind. rewrite E. reflexivity. Qed.
Lemma realloc_back k fuel g h p n s r t l : k_halloc k = true -> refused g None h n -> accb (srng s) (-15) 7 = false ->
  chain_realloc_h k fuel g None h p n s = Ok (r, t, l) -> chain_realloc fuel g None h p n s = Ok (r, t) /\ l = [].
Proof.
  intros Hk HR HA E. assert (Hn := proj1 HR). unfold chain_realloc_h in E. unfold chain_realloc.
  destruct (Z.eqb_spec n 0) as [|_]; [contradiction|]. rewrite andb_false_r in *. destruct (p =? 0).
  { destruct (alloc_refused k fuel g h n s Hk HR HA) as (K & _). rewrite K in E. discriminate. }
  destruct (hbind_inv _ _ _ _ _ _ E) as (v & s1 & l1 & l2 & E1 & E2 & ->). apply up_inv in E1 as (E1 & ->). rewrite (bind_ok _ _ _ _ _ E1), app_nil_r.
  pose proof (proj1 (ev_false _ _ _ _ (ev_get_chunk _ _) E1)) as R1.
  destruct (v =? 0). { destruct (cstrict g); [apply up_inv in E2 as (E2 & ->)|unfold hret in E2; injection E2 as <- <- <-]; auto. }
  rewrite <- bind_assoc. cbv zeta in *.
  destruct (hbind_inv _ _ _ _ _ _ E2) as (us & s2 & l3 & l4 & E3 & E4 & ->). apply up_inv in E3 as (E3 & ->). rewrite (bind_ok _ _ _ _ _ E3), app_nil_r.
  assert (R2 : srng s2 = srng s1) by (apply (ev_false (u <- unpad_vchunk v;; vsize u) s1 us s2); [apply ev_bind; [apply ev_unpad|intros u; apply ev_load]|exact E3]).
  destruct (hbind_inv _ _ _ _ _ _ E4) as (kp & s3 & l5 & l6 & E5 & E6 & ->). apply up_inv in E5 as (E5 & ->). rewrite (bind_ok _ _ _ _ _ E5), app_nil_r.
  assert (R3 : srng s3 = srng s2).
  { destruct ((n <=? sub64 us SZ_LARGE) && (sub64 (sub64 us SZ_LARGE) n <=? cthresh g)); [|injection E5 as _ <-; reflexivity]. destruct (cfactor g =? 0); [discriminate|injection E5 as _ <-; reflexivity]. }
  destruct kp. { unfold hret in E6. injection E6 as <- <- <-. auto. }
  destruct (hbind_inv _ _ _ _ _ _ E6) as (q & s4 & l7 & l8 & E7 & _). rewrite <- R1, <- R2, <- R3 in HA.
  destruct (alloc_refused k fuel g h n s3 Hk HR HA) as (K & _). rewrite K in E7. discriminate.
Qed.

Lemma refused_dec g gr d n : refused g gr d n \/ ~ refused g gr d n.
Proof.
  unfold refused. destruct (Z.eq_dec n 0) as [E|E]; [right; tauto|]. destruct (is_huge g (asz d n)); [|right; intros (_ & K & _); discriminate].
  destruct gr; [right; intros (_ & _ & K); discriminate|left; auto].
Qed.

Lemma step_back k g s o c fuel r t l : reach g s o -> valid g s o c -> fuel_ok g o c fuel -> step_h k fuel g c s = Ok (r, t, l) ->
  exists s', step fuel g c s = Ok (r, s') /\ same t s'.
Proof.
  intros R V HF E. unfold step_h in E.
  assert (G : quiet k g s c -> exists s', step fuel g c s = Ok (r, s') /\ same t s').
  { intros Q. destruct (quiet_step k g s o c fuel R V HF Q) as (r' & s' & t' & l' & E1 & E2 & S). unfold step_h in E2. rewrite E in E2. injection E2 as <- <- <-. eauto. }
  destruct c as [d n gr|p|h p n gr|b z|x v|p| |m]; try (apply G; exact Logic.I).
  - apply G. intros Hk HR. assert (gr = None) by apply HR. subst gr. cbn [exec_h] in E.
    destruct (alloc_refused k fuel g d n (clear_ev s) Hk HR (low_acc _ _ _ R)) as (K & _). rewrite K in E. discriminate.
  - destruct (refused_dec g gr h n) as [HR|HR]; [|apply G; intros _; exact HR]. destruct (k_halloc k) eqn:Hk; [|apply G; cbn [quiet]; rewrite Hk; discriminate].
    assert (gr = None) by apply HR. subst gr. cbn [exec_h] in E. destruct (realloc_back _ _ _ _ _ _ (clear_ev s) _ _ _ Hk HR (low_acc _ _ _ R) E) as (K & _).
    exists t. split; [exact K|apply same_refl].
  - apply G. cbn [quiet]. intros Hk. destruct (Z.eq_dec (rqh s) 0) as [Z0|Z0]; [exact Z0|]. exfalso. cbn [exec_h] in E.
    destruct (hbind_inv _ _ _ _ _ _ E) as (u & s1 & l1 & l2 & E1 & _). exact (flush_never k fuel fuel g (clear_ev s) _ Hk Z0 E1).
Qed.

Lemma hreach_reach g k s o L : hreach g k s o L -> reach g s o.
Proof.
  induction 1 as [m s HW E|s o L fuel c r t l HR IH V HF E]; [eapply reach_init; eauto|].
  destruct (step_back _ _ _ _ _ _ _ _ _ IH V HF E) as (s' & E' & S). rewrite (same_clear _ _ S).
  assert (Ev : sevs t = sevs s') by apply S. rewrite Ev. apply reach_store; [eapply reach_step; eauto|]. apply S.
Qed.

(** ** The blocks *)
Lemma live_v g s B A F p n d : Core g s B A F -> In (mkBlk p n d) B -> exists v, get_chunk_unpadded p s = Ok (v, s) /\ 0 < v.
Proof.
  intros C HB. destruct (core_in _ _ _ _ _ _ _ _ C HB) as (e & HU). assert (W := iv_w _ _ _ _ (co_inv _ _ _ _ _ C)).
  destruct (used_zip _ _ _ _ _ HU) as (S1 & b & z & l1 & c & l2 & S2 & EA & Ee). subst A.
  assert (HC := world_chunk _ _ _ _ _ _ _ _ _ _ _ _ W eq_refl). destruct HC as (_ & _ & _ & _ & H1 & _ & H2 & _).
  exists (b + 32 + tot l1 + 15). split; [|lia].
  assert (X : wp (get_chunk_unpadded p) s (fun v s' => v = b + 32 + tot l1 + 15 /\ s' = s)) by (eapply live_chunk_unpadded; [exact W|reflexivity|auto]).
  destruct (wp_run _ _ _ X) as (v & s' & E & -> & ->). exact E.
Qed.
Lemma free_one k fuel g s B A F p n d s' l T : k_free k = true -> k_hfree k = true -> Core g s B A F -> In (mkBlk p n d) B -> bytes A < Z.of_nat fuel ->
  chain_free_h k fuel g p s = Ok (tt, s', l) -> Permutation T (map bp B) -> Permutation (fold_right undo T (pacts l)) (map bp (rm p B)).
Proof.
  intros K1 K2 C HB HF E HP. pose proof (core_pos _ _ _ _ _ _ _ _ C HB) as P0. destruct (live_v _ _ _ _ _ _ _ _ C HB) as (v & HC & HV).
  destruct (free_log k fuel g p s v s' l K1 K2 ltac:(lia) HC ltac:(lia) E) as (z & _ & ->). cbn [fold_right undo].
  replace (map bp (rm p B)) with (filter (fun q => negb (q =? p)) (map bp B)); [apply perm_filter, HP|].
  clear. unfold rm. induction B as [|b B IH]; [reflexivity|]. cbn [map filter]. destruct (bp b =? p); cbn [negb map]; rewrite ?IH; reflexivity.
Qed.

Lemma er_ok {A} (x : H A) (y : M A) s a s' l : erases x y -> x s = Ok (a, s', l) -> y s = Ok (a, s').
Proof.
  intros H E. specialize (H s). unfold erase in H. destruct (y s) as [[b t]| | |]; [|rewrite H in E; discriminate..].
  destruct H as (l' & H). rewrite H in E. injection E as -> -> _. reflexivity.
Qed.

Lemma purge_many k fuel g Lv L : k_free k = true -> k_hfree k = true -> forall qfuel s A F s' l T, Core g s (Lv ++ L) A F -> qok (smem s) (map bp L) ->
  bytes A < Z.of_nat fuel -> purge_loop_h k fuel qfuel g (hd 0 (map bp L)) s = Ok (tt, s', l) ->
  Permutation T (map bp (Lv ++ L)) -> Permutation (fold_right undo T (pacts l)) (map bp Lv).
Proof.
  intros K1 K2. induction L as [|[p n d] L IH]; intros qfuel s A F s' l T C Q Hf E HP; (destruct qfuel as [|qfuel]; [discriminate|]); cbn [purge_loop_h map hd bp] in E.
  - rewrite Z.eqb_refl in E. unfold hret in E. injection E as _ <-. cbn. rewrite app_nil_r in HP. exact HP.
  - cbn [map qok bp] in Q. destruct Q as (Q1 & Q2 & Q3).
    assert (HB : In (mkBlk p n d) (Lv ++ mkBlk p n d :: L)) by (apply in_mid; left; reflexivity).
    assert (P0 := core_pos _ _ _ _ _ _ _ _ C HB). destruct (Z.eqb_spec p 0); [lia|].
    destruct (hbind_inv _ _ _ _ _ _ E) as (u & s1 & l1 & l2 & E1 & E2 & ->).
    assert (N1 : s1 = s /\ pacts l1 = []).
    { destruct (k_entry k); cbn [hook] in E1; [|unfold hret in E1; injection E1 as _ <- <-; auto].
      destruct (hbind_inv _ _ _ _ _ _ E1) as (q & s2 & l3 & l4 & E3 & E4 & ->). apply up_inv in E3 as (E3 & ->). destruct (load_state _ _ _ _ _ E3) as (-> & _).
      unfold emit in E4. injection E4 as _ <- <-. auto. }
    destruct N1 as (-> & N1). destruct (hbind_inv _ _ _ _ _ _ E2) as (nx & s2 & l3 & l4 & E3 & E4 & ->). apply up_inv in E3 as (E3 & ->).
    destruct (load_state _ _ _ _ _ E3) as (-> & _). assert (nx = hd 0 (map bp L)).
    { rewrite <- Q1. unfold loadn in E3. destruct (accb _ _ _); [|discriminate]. injection E3 as <-. reflexivity. } subst nx.
    destruct (hbind_inv _ _ _ _ _ _ E4) as (q & s3 & l5 & l6 & E5 & E6 & ->). apply up_inv in E5 as (E5 & ->).
    destruct (load_state _ _ _ _ _ E5) as (-> & _). assert (q = p).
    { rewrite <- Q2. unfold loadn in E5. destruct (accb _ _ _); [|discriminate]. injection E5 as <-. reflexivity. } subst q.
    destruct (hbind_inv _ _ _ _ _ _ E6) as ([] & s4 & l7 & l8 & E7 & E8 & ->). rewrite !app_nil_r, !pacts_app, N1, app_nil_r, fold_right_app.
    pose proof (er_ok _ _ _ _ _ _ (er_free k fuel g p) E7) as E7'. assert (W := iv_w _ _ _ _ (co_inv _ _ _ _ _ C)). assert (ND := core_nodup _ _ _ _ _ C).
    destruct (wp_run _ _ _ (free_core fuel g s _ A F p n d C HB Hf)) as ([] & s5 & E9 & A1 & F1 & evs1 & C1 & T1 & B1 & _). rewrite E7' in E9. injection E9 as <-.
    pose proof (free_one _ _ _ _ _ _ _ _ _ _ _ _ _ K1 K2 C HB Hf E7 HP) as P1.
    rewrite (rm_mid (mkBlk p n d) Lv L ND : rm p _ = _) in C1, P1.
    assert (QN : qok (smem s4) (map bp L)).
    { eapply qok_frame; [|exact Q3]. intros q x Hq' Hx. apply in_map_iff in Hq' as ([q' n' d'] & Eq & Hq'). cbn [bp] in Eq. subst q'.
      destruct (core_in _ _ _ _ _ q n' d' C) as (e' & HU'); [apply in_or_app; right; right; exact Hq'|].
      rewrite map_app in ND. cbn [map bp] in ND. assert (N2 := NoDup_remove_2 _ _ _ ND).
      destruct T1 as (_ & _ & _ & _ & T5 & _). destruct (T5 _ _ _ _ HU') as (_ & K).
      { intros ->. apply N2. apply in_or_app. right. apply in_map_iff. exists (mkBlk p n' d'). auto. }
      apply K. destruct (used_in _ _ _ _ _ _ _ _ W HU') as (_ & _ & _ & J & _). lia. }
    eapply (IH qfuel s4 A1 F1); [exact C1|exact QN|lia|exact E8|exact P1].
Qed.


Lemma map_resize p n l : map bp (resize p n l) = map bp l.
Proof. unfold resize. rewrite map_map. apply map_ext. intros b. destruct (Z.eqb_spec (bp b) p); cbn; congruence. Qed.


Definition calm {A} (x : M A) : Prop := forall s a s', x s = Ok (a, s') -> s' = s.
Lemma cm_ret {A} (a : A) : calm (ret a). Proof. intros s b s' E. injection E as _ <-. reflexivity. Qed.
Lemma cm_load a n : calm (loadn a n). Proof. intros s b s' E. exact (proj1 (load_state _ _ _ _ _ E)). Qed.
Lemma cm_assume b : calm (assume b). Proof. intros s a s' E. destruct b; [injection E as _ <-; reflexivity|discriminate]. Qed.
Lemma cm_bind {A B} (x : M A) (f : A -> M B) : calm x -> (forall a, calm (f a)) -> calm (bind x f).
Proof. intros H1 H2 s b s' E. unfold bind in E. destruct (x s) as [[a s1]| | |] eqn:E1; try discriminate. cbn [rbind] in E. rewrite (H2 _ _ _ _ E). exact (H1 _ _ _ E1). Qed.
Lemma cm_chunk p : calm (get_chunk p).
Proof.
  unfold get_chunk. destruct (p =? 0); [apply cm_ret|]. cbv zeta. apply cm_bind; [unfold get_magic; apply cm_bind; [apply cm_load|intros; apply cm_ret]|intros m].
  destruct (negb _); [apply cm_ret|]. apply cm_bind; [unfold get_type; apply cm_bind; [apply cm_load|intros; apply cm_ret]|intros ty].
  apply cm_bind; [apply cm_assume|intros _; apply cm_ret].
Qed.
Lemma cm_unpad v : calm (u <- unpad_vchunk v ;; vsize u).
Proof.
  apply cm_bind; [|intros u; apply cm_load]. unfold unpad_vchunk. destruct (v =? 0); [apply cm_ret|].
  apply cm_bind; [unfold get_type; apply cm_bind; [apply cm_load|intros; apply cm_ret]|intros ty].
  destruct (ty =? T_PADDED); [|apply cm_ret]. unfold get_padding. apply cm_bind; [apply cm_load|intros x; apply cm_chunk].
Qed.

Lemma core_same g t s B A F : Core g s B A F -> same t s -> Core g t B A F.
Proof.
  intros C (S1 & S2 & S3 & S4 & S5 & S6 & S7 & S8). replace t with (set_mem s (smem t)).
  - apply core_write; [exact C|]. intros x. left. apply S1.
  - destruct t, s; cbn in *. subst. reflexivity.
Qed.
Lemma alloc_back k fuel g gr d n s o B A F r t l : Core g s B A F -> request_ok g o d n gr ->
  alloc_align_h k fuel g gr d n s = Ok (r, t, l) -> exists s', alloc_align fuel g gr d n s = Ok (r, s') /\ same t s'.
Proof.
  intros C V E. assert (Q : k_halloc k = true -> ~ refused g gr d n).
  { intros Hk HR. assert (gr = None) by apply HR. subst gr.
    assert (HA : accb (srng s) (-15) 7 = false) by (destruct (accb (srng s) (-15) 7) eqn:Ea; [pose proof (core_acc _ _ _ _ _ _ _ C Ea); lia|reflexivity]).
    destruct (alloc_refused k fuel g d n s Hk HR HA) as (K & _). rewrite K in E. discriminate. }
  assert (P : forall b, csrc g = true -> gr = Some b -> 0 < b) by (destruct V as (_ & _ & _ & _ & V); intros b Hc Eb; exact (proj1 (V Hc b Eb))).
  pose proof (alloc_same k fuel g gr d n s P Q) as K. unfold hsame in K. destruct (alloc_align fuel g gr d n s) as [[r' s']| | |]; [|rewrite K in E; discriminate..].
  destruct K as (l' & t' & K1 & K2). rewrite E in K1. injection K1 as <- <- <-. eauto.
Qed.

Lemma rm_cons_other p b B : bp b <> p -> rm p (b :: B) = b :: rm p B.
Proof. intros H. unfold rm. cbn [filter]. destruct (Z.eqb_spec (bp b) p); [contradiction|reflexivity]. Qed.

(** The log of a reallocation. *)
Lemma realloc_log k fuel g gr h p n s o B A F r t l T m d : all_on k -> Core g s B A F -> segs o = map segr A -> request_ok g o h n gr ->
  bytes A + (if csrc g then ask_size h n else 0) < Z.of_nat fuel -> p <> 0 -> n <> 0 -> In (mkBlk p m d) B ->
  chain_realloc_h k fuel g gr h p n s = Ok (r, t, l) -> Permutation T (map bp B) ->
  Permutation (fold_right undo T (pacts l)) (map bp (if r =? p then B else if r =? 0 then rm p B else mkBlk r n h :: rm p B)).
Proof.
  intros (K1 & K2 & K3 & K4) C So V2 HB Hp Hn HI E HP. assert (P0 := core_pos _ _ _ _ _ _ _ _ C HI).
  assert (AS : 0 <= if csrc g then ask_size h n else 0).
  { destruct (csrc g); [|lia]. destruct V2 as (R1 & R2 & _). apply pow2_bd in R2. assert (K := ask_size_min h n R1 ltac:(lia)). lia. }
  unfold chain_realloc_h in E. destruct (Z.eqb_spec p 0) as [|_]; [contradiction|]. destruct (Z.eqb_spec n 0) as [|_]; [contradiction|]. cbn [andb] in E.
  destruct (hbind_inv _ _ _ _ _ _ E) as (v & s1 & l1 & l2 & E1 & E2 & ->). apply up_inv in E1 as (E1 & ->). rewrite app_nil_r.
  assert (s1 = s) by exact (cm_chunk _ _ _ _ E1). subst s1.
  destruct (Z.eqb_spec v 0) as [Ev|Ev].
  { exfalso. destruct (live_v _ _ _ _ _ _ _ _ C HI) as (w & Ew & Hw). unfold get_chunk_unpadded in Ew. rewrite (bind_ok _ _ _ _ _ E1), Ev in Ew. cbn in Ew. injection Ew as <-. lia. }
  cbv zeta in E2. destruct (hbind_inv _ _ _ _ _ _ E2) as (us & s2 & l3 & l4 & E3 & E4 & ->). apply up_inv in E3 as (E3 & ->). rewrite app_nil_r.
  assert (s2 = s) by exact (cm_unpad _ _ _ _ E3). subst s2.
  destruct (hbind_inv _ _ _ _ _ _ E4) as (kp & s3 & l5 & l6 & E5 & E6 & ->). apply up_inv in E5 as (E5 & ->). rewrite app_nil_r.
  assert (s3 = s).
  { destruct (_ && _) in E5; [|injection E5 as _ <-; reflexivity]. destruct (cfactor g =? 0); [discriminate|injection E5 as _ <-; reflexivity]. } subst s3.
  destruct kp. { unfold hret in E6. injection E6 as <- _ <-. rewrite Z.eqb_refl. exact HP. }
  clear E1 E2 E3 E4 E5 E.
  destruct (hbind_inv _ _ _ _ _ _ E6) as (q & s4 & l7 & l8 & E7 & E8 & ->). clear E6.
  destruct (alloc_back _ _ _ _ _ _ _ _ _ _ _ _ _ _ C V2 E7) as (s5 & E7' & S5).
  destruct (wp_run _ _ _ (alloc_core fuel g s B A F o gr h n C So V2 HB)) as (q' & s5' & X & A1 & F1 & evs & C1 & _ & B1 & R0 & RN). rewrite E7' in X. injection X as <- <-.
  pose proof (core_same _ _ _ _ _ _ C1 S5) as C4.
  destruct (hbind_inv _ _ _ _ _ _ E8) as (u & s6 & l9 & l10 & E9 & E10 & ->). apply up_inv in E9 as (E9 & ->). clear E8.
  destruct (hbind_inv _ _ _ _ _ _ E10) as ([] & s7 & l11 & l12 & E11 & E12 & ->). unfold hret in E12. injection E12 as -> _ <-. clear E10.
  rewrite app_nil_r. cbn [app]. rewrite pacts_app, fold_right_app.
  destruct (alloc_log _ _ _ _ _ _ _ _ _ _ K1 K3 (fun x => core_acc _ _ _ _ _ x 7 C4) E7) as [(-> & ->)|(Hr & z & -> & _)].
  - cbn [fold_right]. destruct (Z.eqb_spec 0 p); [congruence|]. rewrite Z.eqb_refl in *. unfold ret in E9. injection E9 as _ <-.
    destruct (R0 eq_refl) as (_ & -> & -> & _). eapply (free_one k fuel); [exact K2|exact K4|exact C4|exact HI|lia|exact E11|exact HP].
  - destruct (Z.eqb_spec r 0) as [|_]; [contradiction|]. destruct (RN Hr) as (_ & RF & (e1 & HR & _) & _).
    assert (NRP : r <> p). { destruct (core_in _ _ _ _ _ _ _ _ C HI) as (e & HU). intros ->. exact (RF _ _ _ HU). }
    destruct (Z.eqb_spec r p) as [|_]; [contradiction|]. assert (W4 := iv_w _ _ _ _ (co_inv _ _ _ _ _ C4)).
    destruct (used_in _ _ _ _ _ _ _ _ W4 HR) as (sgr & L1 & L2 & L3 & L4 & L5 & L6).
    assert (C6 : Core g s6 (mkBlk r n h :: B) A1 F1).
    { unfold memcpy in E9. destruct (_ && _) in E9; [|discriminate]. injection E9 as _ <-. apply core_write; [exact C4|].
      intros x. set (cnt := if sub64 us SZ_LARGE <? n then sub64 us SZ_LARGE else n). destruct ((r <=? x) && (x <? r + cnt)) eqn:EE; [right|left; reflexivity].
      eapply used_not_scratch; [exact W4|exact HR|]. assert (cnt <= n) by (unfold cnt; destruct (Z.ltb_spec (sub64 us SZ_LARGE) n); lia). lia. }
    cbn [fold_right undo]. rewrite <- (rm_cons_other p (mkBlk r n h)) by exact NRP.
    eapply (free_one k fuel); [exact K2|exact K4|exact C6|right; exact HI|lia|exact E11|]. cbn [map bp]. apply perm_skip, HP.
Qed.

Lemma step_blocks k g s o c fuel r t l T : all_on k -> reach g s o -> valid g s o c -> fuel_ok g o c fuel -> step_h k fuel g c s = Ok (r, t, l) ->
  Permutation T (map bp (blocks o)) -> Permutation (fold_right undo T (pacts l)) (map bp (blocks (next o c r (sevs t)))).
Proof.
  intros ON R V HF E HP. assert (ON' := ON). destruct ON' as (K1 & K2 & K3 & K4). destruct (step_back _ _ _ _ _ _ _ _ _ R V HF E) as (s' & E' & S). unfold step in E'.
  assert (R' : reach g s' (next o c r (sevs s'))) by (eapply reach_step; eauto).
  destruct (reach_good _ _ _ (reach_clear _ _ _ R)) as (A & F & G). assert (C := gd_core _ _ _ _ _ G).
  assert (HB : bytes A + extra g c < Z.of_nat fuel) by (unfold fuel_ok in HF; rewrite (held_bytes _ _ (gd_segs _ _ _ _ _ G)) in HF; exact HF).
  unfold step_h in E. unfold blocks in *. set (s0 := clear_ev s) in *.
  assert (PT : forall x, accb (srng t) x 7 = true -> 0 < x).
  { intros x. destruct S as (_ & S & _). rewrite S. apply (good_acc _ _ _ _ _ R'). }
  destruct c as [d n gr|p|h p n gr|b z|x v|p| |m]; cbn [exec_h next live pend] in *.
  - destruct (alloc_log _ _ _ _ _ _ _ _ _ _ K1 K3 PT E) as [(-> & ->)|(Hr & z & -> & _)]; [exact HP|].
    destruct (Z.eqb_spec r 0); [contradiction|]. cbn [fold_right undo app map bp]. apply perm_skip, HP.
  - destruct (hbind_inv _ _ _ _ _ _ E) as ([] & s1 & l1 & l2 & E1 & E2 & ->). unfold hret in E2. injection E2 as _ _ <-. cbn [app].
    destruct V as [->|(n & d & V)].
    + cbn in E1. unfold hret in E1. injection E1 as _ <-. cbn [pacts flat_map fold_right]. rewrite (rm_zero g s0 o A F G). exact HP.
    + rewrite <- (rm_pend _ _ _ _ _ _ _ _ C V). eapply (free_one k fuel); [exact K2|exact K4|exact C|apply in_or_app; left; exact V| |exact E1|exact HP]. cbn [extra] in HB. lia.
  - destruct V as (V1 & V2 & V3). destruct (Z.eqb_spec p 0) as [->|Hp].
    { unfold chain_realloc_h in E. cbn [Z.eqb andb] in E. destruct (Z.eqb_spec n 0) as [->|Hn]; [unfold hret in E; injection E as <- _ <-; exact HP|].
      destruct (alloc_log _ _ _ _ _ _ _ _ _ _ K1 K3 PT E) as [(-> & ->)|(Hr & z & -> & _)]; [exact HP|].
      destruct (Z.eqb_spec r 0); [contradiction|]. cbn [fold_right undo app map bp]. apply perm_skip, HP. }
    destruct V1 as [V1|(m & dd & V1 & Hd)]; [contradiction|]. assert (HI : In (mkBlk p m dd) (live o ++ pend o)) by (apply in_or_app; left; exact V1).
    destruct (Z.eqb_spec n 0) as [->|Hn].
    { unfold chain_realloc_h in E. destruct (Z.eqb_spec p 0) as [|_]; [contradiction|]. cbn [Z.eqb andb] in E.
      destruct (hbind_inv _ _ _ _ _ _ E) as ([] & s1 & l1 & l2 & E1 & E2 & ->). unfold hret in E2. injection E2 as _ _ <-. cbn [app].
      rewrite <- (rm_pend _ _ _ _ _ _ _ _ C V1). eapply (free_one k fuel); [exact K2|exact K4|exact C|exact HI| |exact E1|exact HP]. cbn [extra] in HB.
      destruct (csrc g); [|lia]. destruct V2 as (R1 & R2 & _). apply pow2_bd in R2. assert (K := ask_size_min h 0 R1 ltac:(lia)). lia. }
    pose proof (realloc_log _ _ _ _ _ _ _ _ _ _ _ _ _ _ _ T _ _ ON C (gd_segs _ _ _ _ _ G) V2 HB Hp Hn HI E HP) as K.
    destruct (r =? p); [rewrite map_app, map_resize, <- map_app; exact K|]. rewrite (rm_pend _ _ _ _ _ _ _ _ C V1) in K. destruct (r =? 0); exact K.
  - apply up_inv in E as (_ & ->). exact HP.
  - apply up_inv in E as (_ & ->). exact HP.
  - apply up_inv in E as (_ & ->). cbn [pacts flat_map fold_right]. destruct V as (n & d & V).
    assert (ND := core_nodup _ _ _ _ _ C). rewrite map_app in ND. apply NoDup_app_remove_r in ND. rewrite (filter_one p n d _ ND V).
    eapply Permutation_trans; [exact HP|]. rewrite app_assoc. rewrite map_app. pose proof (Permutation_map bp (perm_rm p n d _ ND V)) as PM.
    rewrite !map_app. cbn [map bp] in *. eapply Permutation_trans; [apply Permutation_app_tail; exact PM|]. cbn [app].
    rewrite <- map_app. apply Permutation_cons_append.
  - destruct (hbind_inv _ _ _ _ _ _ E) as ([] & s1 & l1 & l2 & E1 & E2 & ->). unfold hret in E2. injection E2 as _ _ <-. cbn [app]. rewrite app_nil_r.
    unfold purge_rfq_h in E1. destruct (hbind_inv _ _ _ _ _ _ E1) as (sx & s2 & l3 & l4 & E3 & E4 & ->). apply up_inv in E3 as (E3 & ->). injection E3 as <- <-. rewrite app_nil_r.
    destruct (gd_queue _ _ _ _ _ G) as (Q1 & Q2 & Q3). destruct (Z.eqb_spec (rqh s0) 0) as [Z0|Z0].
    { unfold hret in E4. injection E4 as _ <-. cbn [pacts flat_map fold_right]. apply (queue_head _ _ _ R) in Z0. rewrite Z0, app_nil_r in HP. exact HP. }
    cbv zeta in E4. destruct (hbind_inv _ _ _ _ _ _ E4) as (u2 & s3 & l5 & l6 & E5 & E6 & ->). apply up_inv in E5 as (E5 & ->). injection E5 as _ <-. rewrite app_nil_r.
    destruct (hbind_inv _ _ _ _ _ _ E6) as (u3 & s4 & l7 & l8 & E7 & E8 & ->).
    assert (X : s4 = set_rq s0 0 0 /\ l7 = []).
    { destruct (k_flush k); cbn [hook] in E7; [|unfold hret in E7; injection E7 as _ <- <-; auto].
      destruct (hbind_inv _ _ _ _ _ _ E7) as (cn & s5 & l9 & l10 & E9 & _). apply up_inv in E9 as (E9 & _). exfalso. exact (count_never _ _ _ _ _ _ _ Z0 E9). }
    destruct X as (-> & ->). rewrite app_nil_r. rewrite Q1 in E8.
    apply (purge_many k fuel g (live o) (pend o) K2 K4 fuel (set_rq s0 0 0) A F s1 l8 T); [apply core_rq; exact C|exact Q3| |exact E8|exact HP]. cbn [extra] in HB. lia.
  - apply up_inv in E as (_ & ->). exact HP.
Qed.

Theorem hooks_blocks g k s o L : all_on k -> hreach g k s o L -> Permutation (told_blocks L) (map bp (blocks o)).
Proof.
  intros ON. induction 1 as [m s HW E|s o L fuel c r t l HR IH V HF E]; [apply Permutation_refl|].
  rewrite told_app. eapply step_blocks; [exact ON|exact (hreach_reach _ _ _ _ _ HR)|exact V|exact HF|exact E|exact IH].
Qed.

(** ** The segments *)
Definition sact_of (e : hev) : list (Z * bool) := match e with HAdd b => if b =? 0 then [] else [(b, true)] | HDrop b => [(b, false)] | _ => [] end.
Definition sacts (l : list hev) : list (Z * bool) := flat_map sact_of l.
Definition evact (e : ev) : Z * bool := match e with EGet b _ => (b, true) | EPut b => (b, false) end.
Definition tells {A} (x : H A) : Prop := forall s a s' l, x s = Ok (a, s', l) -> exists evs, sevs s' = evs ++ sevs s /\ sacts l = map evact evs.

Lemma te_up {A} (y : M A) : Ev (fun _ => False) y -> tells (up y).
Proof. intros H s a s' l E. apply up_inv in E as (E & ->). exists []. split; [exact (proj2 (ev_false _ _ _ _ H E))|reflexivity]. Qed.
Lemma te_ret {A} (a : A) : tells (hret a).
Proof. intros s b s' l E. unfold hret in E. injection E as _ <- <-. exists []. auto. Qed.
Lemma te_bind {A B} (x : H A) (f : A -> H B) : tells x -> (forall a, tells (f a)) -> tells (hbind x f).
Proof.
  intros H1 H2 s b s' l E. destruct (hbind_inv _ _ _ _ _ _ E) as (a & s1 & l1 & l2 & E1 & E2 & ->).
  destruct (H1 _ _ _ _ E1) as (e1 & X1 & Y1). destruct (H2 _ _ _ _ _ E2) as (e2 & X2 & Y2). exists (e2 ++ e1).
  unfold sacts in *. rewrite flat_map_app, map_app, Y1, Y2, X2, X1, app_assoc. auto.
Qed.
Lemma te_emit e : sact_of e = [] -> tells (emit e).
Proof. intros H s a s' l E. unfold emit in E. injection E as _ <- <-. exists []. cbn. rewrite H. auto. Qed.
Lemma te_hook b x : tells x -> tells (hook b x).
Proof. intros H. destruct b; [exact H|apply te_ret]. Qed.
Lemma te_size v (e : Z -> hev) : (forall z, sact_of (e z) = []) -> tells (z <-- up (vsize v) ;; emit (e z)).
Proof. intros H. apply te_bind; [apply te_up, ev_load|]. intros z. apply te_emit, H. Qed.

Lemma te_free_macro k g v : k_drop k = true -> tells (free_macro_bloc_h k g v).
Proof.
  intros Hk. unfold free_macro_bloc_h. apply te_bind; [apply te_up, ev_load|intros z]. destruct (negb _); [apply te_ret|].
  apply te_bind; [apply te_up, ev_get_ptr|intros a]. rewrite Hk. intros s u s' l E.
  destruct (hbind_inv _ _ _ _ _ _ E) as (u1 & s1 & l1 & l2 & E1 & E2 & ->). unfold hook, emit in E1. injection E1 as _ <- <-. apply up_inv in E2 as (E2 & ->).
  unfold bind, source_free in E2. destruct (_ && _) in E2; [|discriminate]. cbn [rbind modst] in E2. unfold modst in E2. injection E2 as _ <-.
  exists [EPut (a - SZ_MACRO)]. cbn. auto.
Qed.
Lemma te_request k g gr n : k_add k = true -> (forall b, csrc g = true -> gr = Some b -> b <> 0) -> tells (request_mem_h k g gr n).
Proof.
  intros Hk Hg. unfold request_mem_h. destruct (csrc g); cbn [negb]; [|apply te_ret]. cbv zeta. set (z := if negb _ then _ else _). clearbody z.
  intros s v s' l E. destruct (hbind_inv _ _ _ _ _ _ E) as (b & s1 & l1 & l2 & E1 & E2 & ->). apply up_inv in E1 as (E1 & ->). rewrite app_nil_r.
  destruct (hbind_inv _ _ _ _ _ _ E2) as (u & s2 & l3 & l4 & E3 & E4 & ->). rewrite Hk in E3. unfold hook, emit in E3. injection E3 as _ <- <-.
  assert (T4 : exists evs, sevs s' = evs ++ sevs s1 /\ sacts l4 = map evact evs).
  { revert E4. apply (fun T : tells (if b =? 0 then hret 0 else up (v0 <- prepare_macro_bloc g b;; modst (fun s0 => set_cnt s0 (scnt s0 + 1));;; ret v0)) => T s1 v s' l4).
    destruct (b =? 0); [apply te_ret|]. apply te_up. apply ev_bind; [apply ev_prepare|intros w]. apply ev_bind; [apply ev_modst; intros; auto|intros _; apply ev_ret]. }
  destruct T4 as (e4 & X4 & Y4). unfold sacts in *. rewrite flat_map_app, Y4. destruct gr as [b0|].
  - specialize (Hg b0 eq_refl eq_refl). unfold source_request in E1. unfold bind at 1 in E1. cbn [modst rbind] in E1. unfold modst in E1. cbn [rbind] in E1. unfold bind in E1.
    destruct (setup_macro_bloc b0 z _) as [[u2 s3]| | |] eqn:E5; try discriminate. cbn [rbind] in E1. injection E1 as <- <-.
    pose proof (proj2 (ev_false _ _ _ _ (ev_setup_macro _ _ _) E5)) as E6. cbn [sevs set_ev set_rng] in E6.
    exists (e4 ++ [EGet b0 z]). rewrite X4, E6, map_app, <- app_assoc. split; [reflexivity|]. cbn [flat_map sact_of app map evact].
    destruct (Z.eqb_spec b0 0); [contradiction|reflexivity].
  - cbn [source_request] in E1. unfold ret in E1. injection E1 as <- <-. exists e4. cbn [flat_map sact_of Z.eqb app]. rewrite app_nil_r. auto.
Qed.

Section Tells.
  Context (k : hooks) (g : cfg) (gr : option Z).
  Hypotheses (Ha : k_add k = true) (Hd : k_drop k = true) (Hg : forall b, csrc g = true -> gr = Some b -> b <> 0).
  Lemma te_finish hk e v d : (forall p z, sact_of (e p z) = []) -> tells (finish_h hk e v d).
  Proof.
    intros He. assert (P : Ev (fun _ => False) (if 1 <? d then setup_chunk_padded v d else ret v)) by (destruct (1 <? d); [apply ev_setup_padded|apply ev_ret]).
    unfold finish_h. apply te_bind; [apply te_hook|intros _; apply te_bind; [apply te_up, P|intros w; apply te_ret]].
    apply te_bind; [unfold hook_ptr; apply te_bind; [apply te_up, P|intros w; apply te_ret]|]. intros p. apply te_size. intros z. apply He.
  Qed.
  Lemma te_fetch fuel n : tells (fetch_h k fuel g gr n).
  Proof.
    unfold fetch_h. apply te_bind; [apply te_up, ev_find|intros c]. destruct (c =? 0); [|apply te_ret].
    apply te_bind; [|intros ok; destruct ok; [apply te_up, ev_find|apply te_ret]].
    unfold refill_mem_h. apply te_bind; [apply te_request; assumption|intros v]. destruct (v =? 0); [apply te_ret|].
    apply te_up. apply ev_bind; [apply ev_insert|intros _; apply ev_ret].
  Qed.
  Lemma te_alloc fuel d n : tells (alloc_align_h k fuel g gr d n).
  Proof.
    intros s a s' l E. rewrite alloc_h_assoc in E. revert E. destruct (n =? 0); [apply te_ret|]. destruct (is_huge g (asz d n)).
    - apply (te_bind (request_mem_h k g gr (asz d n))); [apply te_request; assumption|intros v; apply te_finish; reflexivity].
    - apply (te_bind (fetch_h k fuel g gr (asz d n))); [apply te_fetch|intros c]. destruct (c =? 0); [apply te_ret|].
      apply te_bind; [|intros v; apply te_finish; reflexivity]. apply te_up. unfold pick.
      apply ev_bind; [apply ev_load|intros cs]. apply ev_bind; [apply ev_assume|intros _]. apply ev_bind; [apply ev_split|intros vr]. cbv zeta.
      apply ev_bind; [apply ev_load|intros vs]. apply ev_bind; [apply ev_assume|intros _].
      apply ev_bind; [destruct (_ =? 0); [apply ev_ret|apply ev_insert]|intros _; apply ev_ret].
  Qed.
  Lemma te_free fuel p : tells (chain_free_h k fuel g p).
  Proof.
    unfold chain_free_h. destruct (p =? 0); [apply te_ret|]. apply te_bind; [apply te_up, ev_gcu|intros v].
    destruct (v =? 0); [apply te_up, ev_assume|].
    apply te_bind; [apply te_up; apply ev_bind; [apply ev_get_state|intros b; apply ev_bind; [apply ev_assume|intros _; apply ev_load]]|intros z].
    destruct (is_huge g z).
    - apply te_bind; [apply te_hook, te_size; reflexivity|intros _; apply te_free_macro, Hd].
    - apply te_bind; [apply te_hook, te_size; reflexivity|intros _]. apply te_bind.
      + apply te_up. apply ev_bind; [apply ev_getst|intros s0]. apply ev_bind; [destruct (negb _); [apply ev_bind; [apply ev_get_chunk|intros _; apply ev_ret]|apply ev_ret]|intros _].
        destruct (cmerge g); [apply ev_merge|apply ev_ret].
      + intros w. apply te_bind; [apply te_up, ev_load|intros zz]. destruct (_ && _); [apply te_free_macro, Hd|apply te_up, ev_insert].
  Qed.
  Lemma te_realloc fuel h p n : tells (chain_realloc_h k fuel g gr h p n).
  Proof.
    unfold chain_realloc_h. destruct (_ && _); [apply te_ret|]. destruct (p =? 0); [apply te_alloc|].
    destruct (n =? 0); [apply te_bind; [apply te_free|intros _; apply te_ret]|]. apply te_bind; [apply te_up, ev_get_chunk|intros v].
    destruct (v =? 0); [destruct (cstrict g); [apply te_up, ev_abort|apply te_ret]|].
    apply te_bind; [apply te_up; apply ev_bind; [apply ev_unpad|intros u; apply ev_load]|intros us]. cbv zeta. apply te_bind.
    { apply te_up. destruct (_ && _); [destruct (_ =? 0); [apply ev_ub|apply ev_ret]|apply ev_ret]. }
    intros kp. destruct kp; [apply te_ret|]. apply te_bind; [apply te_alloc|intros r].
    apply te_bind; [apply te_up; destruct (r =? 0); [apply ev_ret|apply ev_memcpy]|intros _]. apply te_bind; [apply te_free|intros _; apply te_ret].
  Qed.
  Lemma te_purge_loop fuel q : forall e, tells (purge_loop_h k fuel q g e).
  Proof.
    induction q as [|q IH]; intros e; cbn [purge_loop_h]; [apply te_up, ev_nofuel|]. destruct (e =? 0); [apply te_ret|].
    apply te_bind; [apply te_hook; apply te_bind; [apply te_up, ev_load|intros p; apply te_emit; reflexivity]|intros _].
    apply te_bind; [apply te_up, ev_load|intros n]. apply te_bind; [apply te_up, ev_load|intros p]. apply te_bind; [apply te_free|intros _; apply IH].
  Qed.
  Lemma te_purge fuel q : tells (purge_rfq_h k fuel q g).
  Proof.
    unfold purge_rfq_h. apply te_bind; [apply te_up, ev_getst|intros s]. destruct (rqh s =? 0); [apply te_ret|]. cbv zeta.
    apply te_bind; [apply te_up, ev_modst; auto|intros _]. apply te_bind; [|intros _; apply te_purge_loop].
    apply te_hook. apply te_bind; [|intros c; apply te_emit; reflexivity]. apply te_up. generalize (rqh s) at 2. generalize 0.
    clear. induction q as [|q IH]; intros cnt cur; cbn [count_loop]; [apply ev_nofuel|]. destruct (_ =? 0); [apply ev_ret|].
    apply ev_bind; [apply ev_load|intros n; apply IH].
  Qed.
End Tells.

Lemma te_exec k g fuel c : k_add k = true -> k_drop k = true -> grant_pos g c -> csrc g = true -> (forall b z, c <> ORefill b z) -> tells (exec_h k fuel g c).
Proof.
  intros Ha Hd HG Hc HR. destruct c as [d n gr|p|h p n gr|b z|x v|p| |m]; cbn [exec_h grant_pos] in *.
  - apply te_alloc; auto. intros b _ Eb. specialize (HG b Hc Eb). lia.
  - apply te_bind; [apply te_free; auto|intros _; apply te_ret].
  - apply te_realloc; auto. intros b _ Eb. specialize (HG b Hc Eb). lia.
  - exfalso. exact (HR b z eq_refl).
  - cbn [exec]. apply te_up. apply ev_bind; [apply ev_modst; auto|intros _; apply ev_ret].
  - cbn [exec]. apply te_up. pose proof (ev_exec fuel g (ORemote p)) as X. cbn [not_refill exec] in X.
    intros s a s' E. destruct (X ltac:(auto) s a s' E) as (evs & E1 & E2 & E3 & E4). exists evs. split; [exact E1|]. split; [|auto].
    eapply Forall_impl; [|exact E2]. intros e (_ & K). destruct e; exact K.
  - apply te_bind; [apply te_purge; auto|intros _; apply te_ret].
  - cbn [exec]. apply te_up. apply ev_bind; [apply ev_modst; auto|intros _; apply ev_ret].
Qed.

Definition sundo (a : Z * bool) (l : list Z) : list Z := if snd a then fst a :: l else filter (fun q => negb (q =? fst a)) l.
Lemma told_segs_app l L : told_segs (l ++ L) = fold_right sundo (told_segs L) (sacts l).
Proof.
  induction l as [|e l IH]; [reflexivity|]. cbn [app told_segs sacts flat_map]. fold (sacts l).
  destruct e; cbn [sact_of app fold_right sundo]; rewrite ?IH; try reflexivity. match goal with |- context[?b =? 0] => destruct (b =? 0) end; reflexivity.
Qed.
Lemma segs_next o c r evs : (forall b z, c <> ORefill b z) -> segs (next o c r evs) = fold_right apply_ev (segs o) evs.
Proof. intros H. destruct c; try reflexivity. exfalso. exact (H _ _ eq_refl). Qed.
Lemma map_apply evs l : map fst (fold_right apply_ev l evs) = fold_right sundo (map fst l) (map evact evs).
Proof.
  induction evs as [|e evs IH]; [reflexivity|]. cbn [fold_right map]. rewrite <- IH. destruct e as [b z|b]; cbn [apply_ev evact sundo fst snd]; [reflexivity|].
  generalize (fold_right apply_ev l evs). clear. intros l. induction l as [|[x z] l IH]; [reflexivity|]. cbn [filter map fst]. destruct (x =? b); cbn [negb map fst]; rewrite ?IH; reflexivity.
Qed.

Theorem hooks_segments g k s o L : k_add k = true -> k_drop k = true -> csrc g = true -> hreach g k s o L -> told_segs L = map fst (segs o).
Proof.
  intros Ha Hd Hc. induction 1 as [m s HW E|s o L fuel c r t l HR IH V HF E]; [reflexivity|].
  assert (NR : forall b z, c <> ORefill b z) by (intros b z ->; destruct V as (V & _); congruence).
  destruct (te_exec k g fuel c Ha Hd (grants _ _ _ _ V) Hc NR _ _ _ _ E) as (evs & E1 & E2). cbn [sevs clear_ev] in E1. rewrite app_nil_r in E1.
  rewrite told_segs_app, IH, E2, segs_next, map_apply, E1 by exact NR. reflexivity.
Qed.

(** ** The sizes *)
Lemma told_pact l p z : In (New p z) (pacts l) \/ In (Del p z) (pacts l) -> size_told l p z.
Proof.
  unfold pacts. intros H. assert (X : exists a, In a (flat_map pact_of l) /\ (a = New p z \/ a = Del p z)) by (destruct H as [H|H]; eauto).
  destruct X as (a & Ha & Hx). apply in_flat_map in Ha as (e & He & Ha). exists e. split; [exact He|].
  destruct e; cbn in Ha; destruct Ha as [<-|[]] || contradiction; destruct Hx as [E|E]; try discriminate; injection E as -> ->; auto.
Qed.
Lemma pact_told l p z : size_told l p z -> In (New p z) (pacts l) \/ In (Del p z) (pacts l).
Proof.
  intros (e & He & X). unfold pacts. destruct e; try contradiction; destruct X as (-> & ->); [left|right|left|right]; apply in_flat_map; eexists; (split; [exact He|left; reflexivity]).
Qed.

Lemma occ_split m p w c : occ m p = (w, c) -> occ_start m p = w /\ ld m w 7 = c.
Proof. intros H. pose proof (f_equal fst H) as H1. pose proof (f_equal snd H) as H2. unfold occ in H1, H2. cbn [fst snd] in H1, H2. rewrite H1 in H2. auto. Qed.

Lemma free_size g k s o p n d fuel r t l : all_on k -> reach g s o -> In (mkBlk p n d) (live o) -> fuel_ok g o (OFree p) fuel ->
  step_h k fuel g (OFree p) s = Ok (r, t, l) -> size_told l p (snd (occ (smem s) p)) /\ forall q z, size_told l q z -> q = p /\ z = snd (occ (smem s) p).
Proof.
  intros (K1 & K2 & K3 & K4) R V HF E. assert (R0 := reach_clear _ _ _ R). destruct (reach_good _ _ _ R0) as (A & F & G). assert (C := gd_core _ _ _ _ _ G).
  assert (HB : In (mkBlk p n d) (blocks o)) by (apply in_or_app; left; exact V).
  destruct (core_in _ _ _ _ _ _ _ _ C HB) as (e & HU). assert (US := used_usable _ _ _ _ _ _ _ (iv_w _ _ _ _ (co_inv _ _ _ _ _ C)) HU).
  destruct (block_occ _ _ _ R0 (mkBlk p n d) (e - p) HB US) as (w & c & x & y & O1 & O2 & O3 & O4 & O5 & O6 & O7 & O8 & O9). cbn [bp] in *.
  cbn [smem clear_ev] in O1. rewrite O1. cbn [snd]. assert (P0 := core_pos _ _ _ _ _ _ _ _ C HB).
  unfold step_h in E. cbn [exec_h] in E. destruct (hbind_inv _ _ _ _ _ _ E) as ([] & s1 & l1 & l2 & E1 & E2 & ->). unfold hret in E2. injection E2 as _ _ <-. cbn [app].
  assert (HW : w + 15 <> 0). { destruct (live_v _ _ _ _ _ _ _ _ C HB) as (v & Hv & Hv0). rewrite O9 in Hv. injection Hv as <-. lia. }
  destruct (free_log k fuel g p (clear_ev s) (w + 15) s1 l1 K2 K4 ltac:(lia) O9 HW E1) as (z & Ez & Ep).
  assert (z = c).
  { destruct (occ_split _ _ _ _ O1) as (_ & O1'). rewrite <- O1'. unfold vsize, get_size, large_of, SZ_LARGE, loadn in Ez.
    replace (w + 15 + 1 - 16) with w in Ez by lia. destruct (accb _ _ _); [|discriminate]. injection Ez as <-. reflexivity. } subst z.
  split; [apply told_pact; rewrite Ep; right; left; reflexivity|]. intros q z Hq. apply pact_told in Hq. rewrite Ep in Hq. destruct Hq as [[Hq|[]]|[Hq|[]]]; [discriminate|].
  injection Hq as -> ->. auto.
Qed.

Lemma alloc_size g k s o d n gr fuel r t l : all_on k -> reach g s o -> valid g s o (OAlloc d n gr) -> fuel_ok g o (OAlloc d n gr) fuel -> d <= 1 ->
  step_h k fuel g (OAlloc d n gr) s = Ok (r, t, l) -> r <> 0 ->
  size_told l r (snd (occ (smem t) r)) /\ forall q z, size_told l q z -> q = r /\ z = snd (occ (smem t) r).
Proof.
  intros (K1 & K2 & K3 & K4) R V HF Hd E Hr. destruct (step_back _ _ _ _ _ _ _ _ _ R V HF E) as (s' & E' & S).
  assert (R' : reach g s' (next o (OAlloc d n gr) r (sevs s'))) by (eapply reach_step; eauto).
  pose proof (reach_store _ _ _ (smem t) R' (proj1 S)) as R1. rewrite <- (same_clear _ _ S) in R1. set (o' := next _ _ _ _) in *.
  assert (HB : In (mkBlk r n d) (blocks o')). { apply in_or_app. left. unfold o'. cbn [next live]. destruct (Z.eqb_spec r 0); [contradiction|left; reflexivity]. }
  destruct (reach_good _ _ _ R1) as (A & F & G). assert (C := gd_core _ _ _ _ _ G).
  destruct (core_in _ _ _ _ _ _ _ _ C HB) as (e & HU). assert (US := used_usable _ _ _ _ _ _ _ (iv_w _ _ _ _ (co_inv _ _ _ _ _ C)) HU).
  destruct (block_occ _ _ _ R1 (mkBlk r n d) (e - r) HB US) as (w & c & x & y & O1 & O2 & O3 & O4 & O5 & O6 & O7 & O8 & O9). cbn [bp bd] in *. specialize (O8 Hd).
  cbn [smem clear_ev] in O1. rewrite O1. cbn [snd]. destruct (occ_split _ _ _ _ O1) as (_ & O1').
  unfold step_h in E. cbn [exec_h] in E.
  destruct (alloc_log _ _ _ _ _ _ _ _ _ _ K1 K3 (fun x (H : accb (srng t) x 7 = true) => good_acc _ (clear_ev t) _ x 7 R1 H) E) as [(Z0 & _)|(_ & z & Ep & Ez)]; [contradiction|].
  specialize (Ez Hd). replace (r - 16) with w in Ez by lia. rewrite O1' in Ez. subst z.
  split; [apply told_pact; rewrite Ep; left; left; reflexivity|]. intros q z Hq. apply pact_told in Hq. rewrite Ep in Hq. destruct Hq as [[Hq|[]]|[Hq|[]]]; [|discriminate].
  injection Hq as -> ->. auto.
Qed.

(** ** What the hooks break *)
Lemma asz_asked g o d n gr : request_ok g o d n gr -> asz d n = asked d n.
Proof.
  intros (R1 & R2 & R3 & _). apply pow2_bd in R2. pose proof S63_val as BS. pose proof W64_val as BW.
  unfold asz, asked, add64, w64; destruct (1 <? d); [|reflexivity]. apply Z.mod_small; change (2 ^ 63) with S63 in R3; lia.
Qed.
Lemma refused_huge g s o d n k fuel : reach g s o -> valid g s o (OAlloc d n None) -> csrc g = true -> huge d n -> n <> 0 -> k_halloc k = true ->
  step_h k fuel g (OAlloc d n None) s = UB /\ step fuel g (OAlloc d n None) s = Ok (0, clear_ev s).
Proof.
  intros R V Hc Hh Hn Hk. apply alloc_refused; [exact Hk| |exact (low_acc _ _ _ R)]. split; [exact Hn|]. split; [|reflexivity].
  rewrite (asz_asked _ _ _ _ _ V). destruct V as (R1 & R2 & R3 & _). apply pow2_bd in R2. change (2 ^ 63) with S63 in R3.
  change (asked d n) with (padsz d n). rewrite (huge_iff g d n R1 (proj1 R2) R3 Hc). unfold huge in Hh. apply Z.ltb_lt. exact Hh.
Qed.
Lemma flush_stuck g s o k fuel x : reach g s o -> k_flush k = true -> pend o <> [] -> step_h k fuel g OPurge s <> Ok x.
Proof.
  intros R Hk Hp E. unfold step_h in E. cbn [exec_h] in E. destruct x as [[r t] l].
  destruct (hbind_inv _ _ _ _ _ _ E) as (u & s1 & l1 & l2 & E1 & _). refine (flush_never k fuel fuel g (clear_ev s) _ Hk _ E1).
  intros Z0. apply Hp. apply (queue_head _ _ _ R). exact Z0.
Qed.

Definition rq_of (e : hev) : list Z := match e with HAlloc q _ _ _ | HHugeAlloc q _ _ _ => [q] | _ => [] end.
Lemma req_log l z : req_told l z <-> In z (flat_map rq_of l).
Proof.
  unfold req_told. rewrite in_flat_map. split.
  - intros (e & H1 & H2). exists e. split; [exact H1|]. destruct e; try contradiction; subst; left; reflexivity.
  - intros (e & H1 & H2). exists e. split; [exact H1|]. destruct e; cbn in H2; try contradiction; destruct H2 as [H2|[]]; exact H2.
Qed.
Definition noreq {A} (x : H A) : Prop := forall s a s' l, x s = Ok (a, s', l) -> flat_map rq_of l = [].
Lemma nr_noact {A} (x : H A) : noact x -> noreq x.
Proof.
  intros H s a s' l E. specialize (H s a s' l E). unfold pacts in H. clear E. induction l as [|e l IH]; [reflexivity|]. cbn [flat_map] in *.
  apply app_eq_nil in H as (H1 & H2). rewrite (IH H2). destruct e; cbn in *; congruence.
Qed.
Lemma finish_req e v bd s r s' l q : (forall p z, rq_of (e p z) = [q]) -> finish_h true e v bd s = Ok (r, s', l) -> flat_map rq_of l = [q].
Proof.
  intros He E. unfold finish_h in E. cbn [hook] in E. destruct (hbind_inv _ _ _ _ _ _ E) as (u & s1 & l1 & l2 & E1 & E2 & ->).
  destruct (hbind_inv _ _ _ _ _ _ E2) as (w & s2 & l3 & l4 & E3 & E4 & ->). unfold hret in E4. injection E4 as _ _ <-.
  destruct (hbind_inv _ _ _ _ _ _ E1) as (p & s3 & l5 & l6 & E5 & E6 & ->). destruct (hbind_inv _ _ _ _ _ _ E6) as (z & s4 & l7 & l8 & E7 & E8 & ->).
  unfold emit in E8. injection E8 as _ _ <-. unfold hook_ptr in E5. destruct (hbind_inv _ _ _ _ _ _ E5) as (w2 & s5 & l9 & l10 & E9 & E10 & ->).
  unfold hret in E10. injection E10 as _ _ <-. apply up_inv in E3 as (_ & ->). apply up_inv in E9 as (_ & ->). apply up_inv in E7 as (_ & ->).
  cbn [app flat_map]. rewrite He. reflexivity.
Qed.
Lemma alloc_req g k s o d n gr fuel r t l : all_on k -> reach g s o -> valid g s o (OAlloc d n gr) -> fuel_ok g o (OAlloc d n gr) fuel ->
  step_h k fuel g (OAlloc d n gr) s = Ok (r, t, l) -> r <> 0 -> forall z, req_told l z <-> z = (if csrc g && (1048576 - 16 <? asked d n) then sub64 (asked d n) d else asked d n).
Proof.
  intros (K1 & K2 & K3 & K4) R V HF E Hr z. rewrite req_log. unfold step_h in E. cbn [exec_h] in E. rewrite alloc_h_assoc in E.
  assert (HZ : is_huge g (asz d n) = csrc g && (1048576 - 16 <? asked d n)).
  { rewrite (asz_asked _ _ _ _ _ V). destruct V as (R1 & R2 & R3 & _). apply pow2_bd in R2. change (2 ^ 63) with S63 in R3. destruct (csrc g) eqn:Hc.
    - change (asked d n) with (padsz d n). apply (huge_iff g d n R1 (proj1 R2) R3 Hc).
    - unfold is_huge. rewrite Hc. reflexivity. }
  rewrite HZ, (asz_asked _ _ _ _ _ V) in E. clear HZ. destruct (n =? 0); [unfold hret in E; injection E as <- _ _; contradiction|]. rewrite K1, K3 in E.
  destruct (csrc g && (1048576 - 16 <? asked d n)).
  - destruct (hbind_inv _ _ _ _ _ _ E) as (v & s1 & l1 & l2 & E1 & E2 & ->). rewrite flat_map_app, (nr_noact _ (na_request _ _ _ _) _ _ _ _ E1), app_nil_r.
    rewrite (finish_req (fun p z0 => HHugeAlloc (sub64 (asked d n) d) p z0 d) _ _ _ _ _ _ (sub64 (asked d n) d) (fun _ _ => eq_refl) E2). cbn. split; [intros [<-|[]]; reflexivity|auto].
  - destruct (hbind_inv _ _ _ _ _ _ E) as (c & s1 & l1 & l2 & E1 & E2 & ->). rewrite flat_map_app, (nr_noact _ (na_fetch _ _ _ _ _) _ _ _ _ E1), app_nil_r.
    destruct (c =? 0); [unfold hret in E2; injection E2 as <- _ _; contradiction|].
    destruct (hbind_inv _ _ _ _ _ _ E2) as (v & s2 & l3 & l4 & E3 & E4 & ->). apply up_inv in E3 as (_ & ->). rewrite app_nil_r.
    rewrite (finish_req (fun p z0 => HAlloc (asked d n) p z0 d) _ _ _ _ _ _ (asked d n) (fun _ _ => eq_refl) E4). cbn. split; [intros [<-|[]]; reflexivity|auto].
Qed.

Lemma hooks_transparent g k s o c fuel : reach g s o -> valid g s o c -> fuel_ok g o c fuel -> ~ broken k g o c ->
  exists r s' t l, step fuel g c s = Ok (r, s') /\ step_h k fuel g c s = Ok (r, t, l) /\ same t s'.
Proof. intros R V HF B. eapply quiet_step; eauto. exact (not_broken _ _ _ _ _ R V B). Qed.

Lemma right_request g k s o d n gr fuel r t l : all_on k -> reach g s o -> valid g s o (OAlloc d n gr) -> fuel_ok g o (OAlloc d n gr) fuel ->
  step_h k fuel g (OAlloc d n gr) s = Ok (r, t, l) -> r <> 0 -> d = 0 \/ (if csrc g && (1048576 - 16 <? asked d n) then d <> 1 else d = 1) ->
  forall z, req_told l z <-> z = n.
Proof.
  intros ON R V HF E Hr Hd z. rewrite (alloc_req _ _ _ _ _ _ _ _ _ _ _ ON R V HF E Hr). destruct V as (V1 & V2 & V3 & _). apply pow2_bd in V2.
  pose proof S63_val as BS. pose proof W64_val as BW. change (2 ^ 63) with S63 in V3. unfold asked in *. unfold sub64, w64. clear - Hd V1 V2 V3 BS BW.
  destruct (1 <? d) eqn:E1.
  - destruct (csrc g && _); [|lia]. rewrite Z.mod_small by lia. split; lia.
  - assert (d = 0 \/ d = 1) by lia. destruct (csrc g && _) eqn:E2; [|split; lia]. assert (d = 0) by lia. subst d. rewrite Z.mod_small by lia. split; lia.
Qed.
Lemma wrong_request g k s o d n gr fuel r t l : all_on k -> reach g s o -> valid g s o (OAlloc d n gr) -> fuel_ok g o (OAlloc d n gr) fuel ->
  step_h k fuel g (OAlloc d n gr) s = Ok (r, t, l) -> r <> 0 -> d <> 0 -> (if csrc g && (1048576 - 16 <? asked d n) then d = 1 else 1 < d) ->
  forall z, req_told l z <-> z = (if csrc g && (1048576 - 16 <? asked d n) then n - 1 else n + d).
Proof.
  intros ON R V HF E Hr H0 Hd z. rewrite (alloc_req _ _ _ _ _ _ _ _ _ _ _ ON R V HF E Hr). destruct V as (V1 & V2 & V3 & _). apply pow2_bd in V2.
  pose proof S63_val as BS. pose proof W64_val as BW. change (2 ^ 63) with S63 in V3. unfold asked in *. unfold sub64, w64. clear - Hd H0 V1 V2 V3 BS BW.
  destruct (1 <? d) eqn:E1.
  - destruct (csrc g && _); [lia|]. split; lia.
  - assert (d = 1) by lia. subst d. destruct (csrc g && _) eqn:E2; [|lia]. rewrite Z.mod_small by lia. split; lia.
Qed.
