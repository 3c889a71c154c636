(** Segments given back: their header still tells their size when the call returns.  And: a call that finds no
    memory with a source that refuses is one that asks the source. *)
From Verif Require Import Word Res Mem SizeClassModel SizeClassProofs ChainModel Wp ChainInv ChainSpec ChainStep ChainRealloc ChainTrace ChainEv ChainProps ChainMore ChainCap ChainSrc.
From Coq Require Import ZArith List Bool Lia.
Import ListNotations.
Open Scope Z_scope.

(** Distinct ranges are apart and have a header. *)
Definition rdisj (l : list (Z * Z)) : Prop :=
  (forall r, In r l -> 24 <= snd r) /\ forall r1 r2, In r1 l -> In r2 l -> r1 <> r2 -> apart r1 r2.
Lemma rdisj_incl l l' : incl l' l -> rdisj l -> rdisj l'.
Proof. intros I (H1 & H2). split; [auto|]. intros r1 r2 K1 K2. apply H2; auto. Qed.

Definition kept_out (s s' : st) : Prop := forall y, (forall b z, In (b, z) (srng s) -> ~ b <= y < b + z) -> smem s' y = smem s y.
(** The header of a segment as the chain left it. *)
Definition intact (g : cfg) (m : mem) (b z : Z) : Prop := ld m b 7 = z /\ (creg g = true -> ld m (b + 16) 8 = cpool g).
Definition Kp (g : cfg) {A} (x : M A) : Prop := forall s a s', x s = Ok (a, s') -> rdisj (srng s) ->
  incl (srng s') (srng s) /\ kept_out s s' /\
  (forall b z, In (b, z) (srng s) -> In (b, z) (srng s') \/ intact g (smem s') b z).

Lemma kp_same g {A} (x : M A) : (forall s a s', x s = Ok (a, s') -> srng s' = srng s /\ kept_out s s') -> Kp g x.
Proof.
  intros H s a s' E _. destruct (H _ _ _ E) as (H1 & H2). rewrite H1. split; [intros r K; exact K|]. split; [exact H2|]. auto.
Qed.
Lemma kp_ret g {A} (a : A) : Kp g (ret a).
Proof. apply kp_same. intros s b s' E. injection E as _ <-. split; [reflexivity|intros y _; reflexivity]. Qed.
Lemma range_dec (r : Z * Z) l : {In r l} + {~ In r l}.
Proof. apply in_dec. intros (a & b) (c & d). destruct (Z.eq_dec a c) as [->|N]; [destruct (Z.eq_dec b d) as [->|N]|]; [left; reflexivity|right|right]; congruence. Qed.
Lemma kp_bind g {A B} (x : M A) (f : A -> M B) : Kp g x -> (forall a, Kp g (f a)) -> Kp g (bind x f).
Proof.
  intros H1 H2 s b s' E RD. unfold bind in E. destruct (x s) as [[a s1]| | |] eqn:E1; try discriminate. cbn in E.
  destruct (H1 _ _ _ E1 RD) as (I1 & F1 & D1). destruct (H2 a _ _ _ E (rdisj_incl _ _ I1 RD)) as (I2 & F2 & D2).
  split; [intros r K; auto|]. split.
  - intros y Hy. rewrite F2; [apply F1; exact Hy|]. intros b0 z0 K. apply Hy. auto.
  - intros b0 z0 HI. destruct (range_dec (b0, z0) (srng s1)) as [K|K]; [exact (D2 _ _ K)|].
    destruct (D1 _ _ HI) as [K2|K2]; [contradiction|]. right.
    assert (FF : forall y, b0 <= y < b0 + 24 -> smem s' y = smem s1 y).
    2: { destruct K2 as (K2 & K4). split; [rewrite <- K2|intros Hg; rewrite <- (K4 Hg)]; apply ld_ext; intros y Hy; apply FF; cbn in Hy; lia. }
    intros y Hy. apply F2. intros b1 z1 K3 Hy2. destruct RD as (RD1 & RD2). destruct (RD2 (b0, z0) (b1, z1) HI (I1 _ K3)) as [J|J]; [congruence| |];
      specialize (RD1 _ HI); cbn [fst snd] in *; lia.
Qed.
Lemma kp_load g a n : Kp g (loadn a n).
Proof.
  apply kp_same. intros s x s' E. unfold loadn in E. destruct (accb _ _ _); [injection E as _ <-|discriminate].
  split; [reflexivity|intros y _; reflexivity].
Qed.
Lemma accb_range r a n : accb r a n = true -> exists b z, In (b, z) r /\ b <= a /\ a + n <= b + z.
Proof. intros H. unfold accb in H. apply existsb_exists in H as ((b & z) & H1 & H2). exists b, z. split; [exact H1|lia]. Qed.
Lemma kp_store g a n v : Kp g (storen a n v).
Proof.
  apply kp_same. intros s x s' E. unfold storen in E. destruct (accb _ _ _) eqn:A; [injection E as _ <-|discriminate].
  split; [reflexivity|]. intros y Hy. cbn [smem set_mem]. apply sto_other. apply accb_range in A as (b & z & K1 & K2 & K3).
  specialize (Hy _ _ K1). lia.
Qed.
Lemma kp_no g {A} (x : M A) : (forall s a s', x s <> Ok (a, s')) -> Kp g x.
Proof. intros H s a s' E. destruct (H _ _ _ E). Qed.
Lemma kp_abort g {A} : Kp g (@abort A). Proof. apply kp_no. discriminate. Qed.
Lemma kp_ub g {A} : Kp g (@ub A). Proof. apply kp_no. discriminate. Qed.
Lemma kp_nofuel g {A} : Kp g (@nofuel A). Proof. apply kp_no. discriminate. Qed.
Lemma kp_assume g b : Kp g (assume b). Proof. destruct b; [apply kp_ret|apply kp_abort]. Qed.
Lemma kp_lift g {A} (r : res A) : Kp g (lift r).
Proof.
  apply kp_same. intros s a s' E. unfold lift in E. destruct r; cbn in E; try discriminate. injection E as _ <-.
  split; [reflexivity|intros y _; reflexivity].
Qed.
Lemma kp_getst g : Kp g getst.
Proof. apply kp_same. intros s a s' E. injection E as _ <-. split; [reflexivity|intros y _; reflexivity]. Qed.
Lemma kp_modst g f : (forall s, srng (f s) = srng s /\ smem (f s) = smem s) -> Kp g (modst f).
Proof.
  intros H. apply kp_same. intros s a s' E. injection E as _ <-. destruct (H s) as (H1 & H2).
  split; [exact H1|]. intros y _. rewrite H2. reflexivity.
Qed.
Lemma kp_source_free g b : Kp g (source_free g b).
Proof.
  intros s a s' E (RD1 & RD2). unfold source_free in E. destruct (existsb _ _) eqn:EX; [|discriminate].
  destruct (_ || _) eqn:EO; [|discriminate]. injection E as _ <-. cbn [srng smem set_ev set_rng]. split; [intros r K; apply filter_In in K; tauto|]. split; [intros y _; reflexivity|].
  apply existsb_exists in EX as ((x & z) & H1 & H2). assert (x = b) by lia. subst x.
  intros b0 z0 HI. destruct (Z.eq_dec b0 b) as [->|N].
  - right. destruct (Z.eq_dec z0 z) as [->|Nz]; [split; [lia|intros Hg; rewrite Hg in EO; cbn [negb orb] in EO; lia]|]. exfalso.
    destruct (RD2 (b, z0) (b, z) HI H1) as [K|K]; [congruence| |]; cbn [fst snd] in K; specialize (RD1 _ HI) as K1; specialize (RD1 _ H1) as K2; cbn [snd] in *; lia.
  - left. apply filter_In. split; [exact HI|lia].
Qed.

Create HintDb kp.
#[local] Hint Resolve kp_load kp_store kp_abort kp_ub kp_nofuel kp_assume kp_lift kp_getst kp_ret kp_source_free : kp.
Ltac kp_step :=
  first [ solve [auto with kp nocore]
        | apply kp_bind; [|intros ?]
        | apply kp_modst; intros ?; split; reflexivity
        | match goal with |- Kp _ (if ?b then _ else _) => destruct b end
        | match goal with |- Kp _ (match ?b with AtEnd => _ | AtStart => _ end) => destruct b end
        | progress cbv zeta
        | progress unfold get_size, set_size, set_addr, get_prevsize, set_prevsize, get_padding, set_padding, get_next, set_next, get_prev, set_prev, vsize, vprevsize, mark_status ].
Ltac kp_tac := intros; repeat kp_step.

Lemma kp_set_type g v t : Kp g (set_type v t). Proof. unfold set_type. kp_tac. Qed.
Lemma kp_set_state g v t : Kp g (set_state v t). Proof. unfold set_state. kp_tac. Qed.
Lemma kp_set_magic g v t : Kp g (set_magic v t). Proof. unfold set_magic. kp_tac. Qed.
Lemma kp_get_type g v : Kp g (get_type v). Proof. unfold get_type. kp_tac. Qed.
Lemma kp_get_state g v : Kp g (get_state v). Proof. unfold get_state. kp_tac. Qed.
Lemma kp_get_magic g v : Kp g (get_magic v). Proof. unfold get_magic. kp_tac. Qed.
#[local] Hint Resolve kp_set_type kp_set_state kp_set_magic kp_get_type kp_get_state kp_get_magic : kp.
Lemma kp_get_chunk g v : Kp g (get_chunk v). Proof. unfold get_chunk. kp_tac. Qed.
Lemma kp_get_ptr g v : Kp g (get_ptr v). Proof. unfold get_ptr. kp_tac. Qed.
#[local] Hint Resolve kp_get_chunk kp_get_ptr : kp.
Lemma kp_unpad g v : Kp g (unpad_vchunk v). Proof. unfold unpad_vchunk. kp_tac. Qed.
#[local] Hint Resolve kp_unpad : kp.
Lemma kp_gcu g v : Kp g (get_chunk_unpadded v). Proof. unfold get_chunk_unpadded. kp_tac. Qed.
Lemma kp_next_chunk g v : Kp g (next_chunk v). Proof. unfold next_chunk. kp_tac. Qed.
Lemma kp_prev_chunk g v : Kp g (prev_chunk v). Proof. unfold prev_chunk. kp_tac. Qed.
Lemma kp_setup_chunk g a b c : Kp g (setup_chunk a b c). Proof. unfold setup_chunk. kp_tac. Qed.
#[local] Hint Resolve kp_gcu kp_next_chunk kp_prev_chunk kp_setup_chunk : kp.
Lemma kp_insert g a md : Kp g (free_list_insert g a md). Proof. unfold free_list_insert. kp_tac. Qed.
Lemma kp_remove g a : Kp g (free_list_remove g a). Proof. unfold free_list_remove. kp_tac. Qed.
#[local] Hint Resolve kp_insert kp_remove : kp.
Lemma kp_left g f : forall a b, Kp g (merge_left f g a b).
Proof. induction f as [|f IH]; cbn [merge_left]; kp_tac. Qed.
Lemma kp_right g f : forall a b, Kp g (merge_right f g a b).
Proof. induction f as [|f IH]; cbn [merge_right]; kp_tac. Qed.
#[local] Hint Resolve kp_left kp_right : kp.
Lemma kp_merge f g v : Kp g (merge_chunk f g v). Proof. unfold merge_chunk. kp_tac. Qed.
#[local] Hint Resolve kp_merge : kp.
Lemma kp_free_macro g v : Kp g (free_macro_bloc g v). Proof. unfold free_macro_bloc. kp_tac. Qed.
#[local] Hint Resolve kp_free_macro : kp.
Lemma kp_free f g p : Kp g (chain_free f g p). Proof. unfold chain_free. kp_tac. Qed.
#[local] Hint Resolve kp_free : kp.
Lemma kp_purge_loop f g q : forall e, Kp g (purge_loop f q g e).
Proof. induction q as [|q IH]; cbn [purge_loop]; kp_tac. Qed.
#[local] Hint Resolve kp_purge_loop : kp.
Lemma kp_purge f q g : Kp g (purge_rfq f q g).
Proof. unfold purge_rfq. kp_tac. Qed.

Lemma kp_memcpy g a b n : Kp g (memcpy a b n).
Proof.
  apply kp_same. intros s x s' E. unfold memcpy in E. destruct (accb (srng s) b n) eqn:A1; [|discriminate].
  destruct (accb (srng s) a n) eqn:A2; [|discriminate]. cbn [andb] in E. destruct (_ || _); [injection E as _ <-|discriminate].
  split; [reflexivity|]. intros y Hy. cbn [smem set_mem]. apply accb_range in A2 as (b0 & z0 & K1 & K2 & K3). specialize (Hy _ _ K1).
  destruct ((a <=? y) && (y <? a + n)) eqn:C; [lia|reflexivity].
Qed.

Lemma FOP_two {A} (R : A -> A -> Prop) l : ForallOrdPairs R l -> forall x y, In x l -> In y l -> x = y \/ R x y \/ R y x.
Proof.
  induction 1 as [|a l H1 H2 IH]; intros x y Hx Hy; [contradiction|]. rewrite Forall_forall in H1.
  destruct Hx as [->|Hx]; destruct Hy as [->|Hy]; auto.
Qed.
Lemma reach_rng g s o : reach g s o -> (forall r, In r (srng s) <-> r = (cpool g, POOL_SIZE) \/ In r (segs o)) /\ rdisj (srng s).
Proof.
  intros R. destruct (reach_good _ _ _ R) as (A & F & G). assert (W := good_world _ _ _ _ _ G).
  assert (E : forall r, In r (srng s) <-> r = (cpool g, POOL_SIZE) \/ In r (segs o)).
  { intros r. rewrite (wd_rng _ _ _ _ W), (gd_segs _ _ _ _ _ G), in_app_iff. cbn [In]. intuition (auto; congruence). }
  split; [exact E|]. split.
  - intros r H. apply E in H as [->|H]; [unfold POOL_SIZE; cbn [snd]; lia|]. rewrite (gd_segs _ _ _ _ _ G) in H. apply in_map_iff in H as (sg & <- & H).
    destruct (w_segok _ _ _ _ W _ H) as (_ & _ & K1 & _ & _ & K2 & _). apply cks_tot in K2. cbn [segr snd]. lia.
  - intros r1 r2 H1 H2 N. destruct (FOP_two _ _ (wd_disj _ _ _ _ W) _ _ H1 H2) as [K|[K|K]]; [contradiction| |]; unfold disj2 in K; unfold apart; lia.
Qed.
Lemma rdisj_new g s o b z : reach g s o -> new_range g o b z -> rdisj ((b, z) :: srng s).
Proof.
  intros R (N1 & N2 & N3 & N4 & N5 & N6). destruct (reach_rng _ _ _ R) as (E & (D1 & D2)). split.
  - intros r [<-|H]; [cbn; lia|auto].
  - assert (K : forall r, In r (srng s) -> apart (b, z) r) by (intros r H; apply N6; apply E in H as [->|H]; [left; reflexivity|right; exact H]).
    intros r1 r2 [<-|H1] [<-|H2] N; [congruence|apply K; exact H2| |apply D2; assumption]. specialize (K _ H1). unfold apart in *. tauto.
Qed.

Lemma unpad_st v s u s' : unpad_vchunk v s = Ok (u, s') -> s' = s.
Proof.
  unfold unpad_vchunk. intros E. destruct (v =? 0); [injection E as _ <-; reflexivity|].
  apply bind_ok in E as (t & s1 & E1 & E). unfold get_type in E1. apply bind_ok in E1 as (i & s2 & E1 & E1'). unfold loadn in E1.
  destruct (accb _ _ _) in E1; [|discriminate]. injection E1 as _ <-. injection E1' as _ <-.
  destruct (_ =? _); [|injection E as _ <-; reflexivity].
  unfold get_padding in E. apply bind_ok in E as (t2 & s2 & E2 & E). unfold loadn in E2. destruct (accb _ _ _) in E2; [|discriminate]. injection E2 as _ <-.
  eapply get_chunk_st. exact E.
Qed.
(** The segments that a call gives back still have their size in their header at the end. *)
Lemma put_header g s o c fuel r s' : reach g s o -> valid g s o c -> step fuel g c s = Ok (r, s') ->
  forall b z, In (b, z) (segs o) -> ~ In (b, z) (segs (next o c r (sevs s'))) -> intact g (smem s') b z.
Proof.
  intros R V E b z HI HN. destruct (reach_rng _ _ _ R) as (ER & RD).
  assert (R' : reach g s' (next o c r (sevs s'))) by (eapply reach_step; eassumption).
  destruct (reach_rng _ _ _ R') as (ER' & _).
  assert (HS : In (b, z) (srng s)) by (apply ER; right; exact HI).
  assert (NP : (b, z) <> (cpool g, POOL_SIZE)).
  { intros K. assert (FA := segs_apart _ _ _ R). inversion FA as [|? ? FA1 _]. rewrite Forall_forall in FA1. specialize (FA1 _ HI).
    rewrite K in FA1. unfold apart, POOL_SIZE in FA1. cbn in FA1. lia. }
  assert (HN' : ~ In (b, z) (srng s')) by (intros K; apply ER' in K as [K|K]; contradiction).
  assert (KK : forall {A} (x : M A) a, Kp g x -> x (clear_ev s) = Ok (a, s') -> intact g (smem s') b z).
  { intros A x a K X. destruct (K _ _ _ X RD) as (_ & _ & K3). destruct (K3 _ _ HS) as [J|J]; [contradiction|exact J]. }
  assert (GG : (forall e, In e (sevs s') -> exists b z, e = EGet b z) -> not_refill c -> False).
  { intros H NR. apply HN. assert (X : segs (next o c r (sevs s')) = fold_right apply_ev (segs o) (sevs s')) by (destruct c; cbn in NR |- *; try reflexivity; contradiction).
    rewrite X. clear - H HI. induction (sevs s') as [|e l IH]; [exact HI|]. destruct (H e (or_introl eq_refl)) as (b1 & z1 & ->). cbn [fold_right apply_ev].
    right. apply IH. intros e He. apply H. right. exact He. }
  assert (EV : forall P : ev -> Prop, not_refill c -> (forall e, gets c e -> P e) -> Forall P (sevs s')).
  { intros P NR HP. destruct (ev_exec fuel g c NR _ _ _ E) as (evs & K1 & K2 & _). cbn [clear_ev sevs] in K1. rewrite app_nil_r in K1. rewrite K1.
    eapply Forall_impl; [|exact K2]. intros e (_ & K). auto. }
  destruct c as [d n gr|p|h p n gr|bb zz|x v|p| |m].
  - exfalso. apply GG; [|exact I]. apply Forall_forall. apply EV; [exact I|]. intros [b1 z1|b1] K; [eauto|contradiction].
  - unfold step in E. cbn [exec] in E. eapply KK; [|exact E]. apply kp_bind; [apply kp_free|intros; apply kp_ret].
  - unfold step in E. cbn [exec] in E. destruct V as (V1 & V2 & V3). revert E. unfold chain_realloc.
    assert (KA : forall r0 s1, alloc_align fuel g gr h n (clear_ev s) = Ok (r0, s1) -> incl (srng s) (srng s1) /\ rdisj (srng s1)).
    { intros r0 s1 X. assert (Y : step fuel g (OAlloc h n gr) s = Ok (r0, s1)) by exact X.
      destruct (alloc_info _ _ _ _ _ _ _ _ _ R V2 Y) as (A0 & A1). destruct (ev_alloc _ _ _ _ _ _ _ _ X) as (evs & K1 & _ & K3 & _).
      cbn [clear_ev sevs srng] in K1, K3. rewrite app_nil_r in K1. subst evs. destruct (Z.eq_dec r0 0) as [E0|E0].
      - destruct (A0 E0) as (-> & _). split; [intros q Hq; exact Hq|exact RD].
      - destruct (A1 E0) as (_ & [(A2 & _)|(b1 & A2 & A3 & A4 & _)]).
        + rewrite A2 in K3. cbn [fold_right] in K3. rewrite K3. split; [intros q Hq; exact Hq|exact RD].
        + rewrite A4 in K3. cbn [fold_right apply_ev] in K3. rewrite K3. split; [intros q Hq; right; exact Hq|].
          eapply rdisj_new; [exact R|]. destruct V2 as (_ & _ & _ & _ & V2). exact (V2 A2 _ A3). }
    destruct ((p =? 0) && (n =? 0)); [intros E; eapply KK; [|exact E]; apply kp_ret|].
    destruct (p =? 0); [intros E; exfalso; apply HN'; exact (proj1 (KA _ _ E) _ HS)|].
    destruct (n =? 0); [intros E; eapply KK; [|exact E]; apply kp_bind; [apply kp_free|intros; apply kp_ret]|].
    intros E. apply bind_ok in E as (v & s1 & E1 & E). assert (ES : s1 = clear_ev s) by (eapply get_chunk_st; exact E1). subst s1.
    destruct (v =? 0); [destruct (cstrict g); [discriminate|]; eapply KK; [|exact E]; apply kp_ret|].
    apply bind_ok in E as (u & s1 & E2 & E). assert (ES : s1 = clear_ev s) by (eapply unpad_st; exact E2). subst s1.
    apply bind_ok in E as (us & s1 & E3 & E). assert (ES : s1 = clear_ev s) by (unfold vsize, get_size, loadn in E3; destruct (accb _ _ _); congruence). subst s1.
    apply bind_ok in E as (k & s1 & E4 & E).
    assert (ES : s1 = clear_ev s) by (destruct (_ && _) in E4; [destruct (cfactor g =? 0); [discriminate|]|]; injection E4 as _ <-; reflexivity). subst s1.
    destruct k; [eapply KK; [|exact E]; apply kp_ret|].
    apply bind_ok in E as (r1 & s1 & E5 & E). destruct (KA _ _ E5) as (K1 & K2).
    assert (KP : Kp g (bind (if r1 =? 0 then ret tt else memcpy r1 p (if sub64 us SZ_LARGE <? n then sub64 us SZ_LARGE else n)) (fun _ => bind (chain_free fuel g p) (fun _ => ret r1)))).
    { apply kp_bind; [destruct (r1 =? 0); [apply kp_ret|apply kp_memcpy]|]. intros _. apply kp_bind; [apply kp_free|intros; apply kp_ret]. }
    destruct (KP _ _ _ E K2) as (_ & _ & K3). destruct (K3 _ _ (K1 _ HS)) as [J|J]; [contradiction|exact J].
  - exfalso. apply HN. unfold step in E. cbn [exec] in E. apply bind_ok in E as (t & s1 & E1 & E2). injection E2 as _ <-.
    rewrite (ev_user_refill _ _ _ _ _ _ E1). cbn [next segs clear_ev sevs fold_right]. destruct (bb =? 0); [exact HI|right; exact HI].
  - exfalso. apply GG; [|exact I]. apply Forall_forall. apply EV; [exact I|]. intros [b1 z1|b1] K; contradiction.
  - exfalso. apply GG; [|exact I]. apply Forall_forall. apply EV; [exact I|]. intros [b1 z1|b1] K; contradiction.
  - unfold step in E. cbn [exec] in E. eapply KK; [|exact E]. apply kp_bind; [apply kp_purge|intros; apply kp_ret].
  - exfalso. apply GG; [|exact I]. apply Forall_forall. apply EV; [exact I|]. intros [b1 z1|b1] K; contradiction.
Qed.

(** ** Who asks the source *)
#[local] Hint Resolve ev_load ev_store ev_abort ev_ub ev_nofuel ev_assume ev_lift ev_getst ev_memcpy ev_ret ev_setup_macro ev_setup_padded ev_stopper
  ev_insert ev_remove ev_find ev_split ev_prepare : ev.
Definition gets_b (b : Z) (s : st) : Prop := exists z, In (EGet b z) (sevs s).
Lemma gets_later {A} P (x : M A) b s a s' : Ev P x -> gets_b b s -> x s = Ok (a, s') -> gets_b b s'.
Proof. intros H (z & K) E. destruct (H _ _ _ E) as (evs & E1 & _). exists z. rewrite E1. apply in_or_app. right. exact K. Qed.

(** [x] and [y] do the same, or [y] records a request granted at [b]. *)
Definition Sm {A} (b : Z) (x y : M A) : Prop := forall s, y s = x s \/ forall r s', y s = Ok (r, s') -> gets_b b s'.
Lemma sm_same {A} b (x : M A) : Sm b x x.
Proof. intros s. left. reflexivity. Qed.
Lemma sm_bind {A B} P b (x y : M A) (f h : A -> M B) : Sm b x y -> (forall a, Sm b (f a) (h a)) -> (forall a, Ev P (h a)) -> Sm b (bind x f) (bind y h).
Proof.
  intros H1 H2 H3 s. unfold bind. destruct (H1 s) as [E|E].
  - rewrite E. destruct (x s) as [[a s1]| | |]; cbn; try (left; reflexivity). apply H2.
  - right. intros r s' X. destruct (y s) as [[a s1]| | |] eqn:Y; try discriminate. cbn in X.
    eapply gets_later; [apply H3|exact (E _ _ eq_refl)|exact X].
Qed.
Lemma sm_pre {A B} b (x : M A) (f h : A -> M B) : (forall a, Sm b (f a) (h a)) -> Sm b (bind x f) (bind x h).
Proof. intros H s. unfold bind. destruct (x s) as [[a s1]| | |]; cbn; try (left; reflexivity). apply H. Qed.
Lemma modst_ok f s a s' : modst f s = Ok (a, s') -> s' = f s.
Proof. intros E. injection E as _ <-. reflexivity. Qed.
Lemma sm_request g b n : Sm b (request_mem g None n) (request_mem g (Some b) n).
Proof.
  unfold request_mem. destruct (negb (csrc g)); [apply sm_same|]. cbv zeta. intros s. right. intros r s' E.
  apply bind_ok in E as (b1 & s1 & E1 & E).
  assert (K : gets_b b s1).
  { cbn [source_request] in E1. apply bind_ok in E1 as (t & s2 & E2 & E1). apply modst_ok in E2. subst s2.
    revert E1. apply (gets_later (fun _ => True) _ b).
    - ev_tac.
    - eexists. left. reflexivity. }
  revert E. apply (gets_later (fun _ => True) _ b); [|exact K]. destruct (b1 =? 0); [apply ev_ret|].
  apply ev_bind; [apply ev_prepare|]. intros v. ev_tac.
Qed.
Lemma alloc_asks f g b d n : Sm b (alloc_align f g None d n) (alloc_align f g (Some b) d n).
Proof.
  unfold alloc_align. destruct (n =? 0); [apply sm_same|]. cbv zeta. destruct (is_huge _ _).
  - apply (sm_bind (fun _ => True)); [apply sm_request|intros; apply sm_same|]. intros v. ev_tac.
  - apply (sm_bind (fun _ => True)); [apply sm_same| |].
    + intros c. apply (sm_bind (fun _ => True)).
      * destruct (c =? 0); [|apply sm_same]. apply (sm_bind (fun _ => True)).
        -- unfold refill_mem. apply (sm_bind (fun _ => True)); [apply sm_request|intros; apply sm_same|]. intros v. ev_tac.
        -- intros; apply sm_same.
        -- intros []; [apply ev_find|apply ev_ret].
      * intros; apply sm_same.
      * intros v. ev_tac.
    + intros v. apply ev_bind.
      * destruct (v =? 0); [|apply ev_ret]. apply ev_bind.
        -- apply ev_weaken with (P := src_ev g (ChainEv.is_get (Some b))); [auto|apply ev_refill].
        -- intros []; [apply ev_find|apply ev_ret].
      * intros v'. ev_tac.
Qed.
Lemma realloc_asks f g b h p n : Sm b (chain_realloc f g None h p n) (chain_realloc f g (Some b) h p n).
Proof.
  unfold chain_realloc. destruct (_ && _); [apply sm_same|]. destruct (p =? 0); [apply alloc_asks|].
  destruct (n =? 0); [apply sm_same|]. apply sm_pre. intros v. destruct (v =? 0); [apply sm_same|].
  apply sm_pre. intros u. apply sm_pre. intros us. cbv zeta. apply sm_pre. intros k. destruct k; [apply sm_same|].
  apply (sm_bind (fun _ => True)); [apply alloc_asks|intros; apply sm_same|].
  intros r. apply ev_bind; [destruct (r =? 0); [apply ev_ret|apply ev_memcpy]|]. intros _.
  apply ev_bind; [|intros; apply ev_ret]. eapply ev_weaken; [|apply ev_free]. auto.
Qed.
