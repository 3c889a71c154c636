(** Facts about one chain used by the model of the whole allocator. *)
From Verif Require Import Word Res Mem SizeClassModel ChainModel ChainInv ChainSpec ChainCore ChainRealloc ChainFuel ChainTrace ChainEv ChainProps ChainCap ChainSrc ChainPut ChainMore.
From Coq Require Import ZArith List Bool Lia.
Import ListNotations.
Open Scope Z_scope.

Lemma clear_idem s : sevs s = [] -> clear_ev s = s.
Proof. destruct s. cbn. intros ->. reflexivity. Qed.
Lemma clear_mem s m : clear_ev (set_mem s m) = set_mem (clear_ev s) m.
Proof. reflexivity. Qed.
Lemma set_mem_same s : set_mem s (smem s) = s.
Proof. destruct s. reflexivity. Qed.
Lemma set_mem_twice s m m' : set_mem (set_mem s m) m' = set_mem s m'.
Proof. reflexivity. Qed.

(** The memory outside what is private may change. *)
Lemma reach_store g s o m : reach g s o -> (forall x, private g s o x -> m x = smem s x) -> reach g (set_mem (clear_ev s) m) o.
Proof.
  intros R H. pose proof (reach_step g s o 0%nat (OStore m) 0 (set_mem (clear_ev s) m) R H eq_refl) as K. cbn [next sevs set_mem clear_ev fold_right] in K.
  destruct o. exact K.
Qed.
Lemma reach_clear g s o : reach g s o -> reach g (clear_ev s) o.
Proof. intros R. assert (K := reach_store g s o (smem s) R ltac:(auto)). exact K. Qed.

(** A step that returns, with any fuel, only changes what the chain holds. *)
Lemma step_out g s o c fuel r s' : reach g s o -> valid g s o c -> step fuel g c s = Ok (r, s') ->
  forall x, (forall b z, In (b, z) ((cpool g, POOL_SIZE) :: segs o) \/ In (EGet b z) (sevs s') \/ c = ORefill b z -> ~ b <= x < b + z) ->
    smem s' x = match c with OStore m => m x | _ => smem s x end.
Proof.
  intros R V E. set (f := Nat.max fuel (Z.to_nat (held o + extra g c + 1))).
  assert (FO : fuel_ok g o c f) by (unfold fuel_ok, f; lia).
  destruct (step_runs g s o c f R V FO) as (r1 & s1 & E1 & _ & H).
  assert (K : step f g c s = step fuel g c s).
  { unfold step in *. destruct (exec_fuel fuel f g c ltac:(unfold f; lia) (clear_ev s)) as [K|K]; [congruence|exact K]. }
  rewrite K, E in E1. injection E1 as <- <-. exact H.
Qed.
Lemma step_fuel g c s f1 f2 x : (f1 <= f2)%nat -> step f1 g c s = Ok x -> step f2 g c s = Ok x.
Proof. intros H E. unfold step in *. destruct (exec_fuel f1 f2 g c H (clear_ev s)) as [K|K]; congruence. Qed.

(** The header of a segment holds its size and its chain. *)
Lemma seg_header g s o b z : reach g s o -> In (b, z) (segs o) -> intact g (smem s) b z.
Proof.
  intros R H. destruct (reach_good _ _ _ R) as (A & F & G). destruct (good_seg _ _ _ _ _ _ _ G H) as (sg & Hs & -> & ->).
  pose proof (good_world _ _ _ _ _ G) as W. pose proof (w_segok _ _ _ _ W _ Hs) as (_ & _ & _ & (K & _) & K2 & _). split; assumption.
Qed.

(** ** Shape of the exchanges of a call: at most one segment got, first; then segments given back. *)
Definition Zero {A} (x : M A) : Prop := Ev (fun _ => False) x.
Definition One (P : ev -> Prop) {A} (x : M A) : Prop := forall s a s', x s = Ok (a, s') -> sevs s' = sevs s \/ exists e, P e /\ sevs s' = e :: sevs s.

Lemma zero_evs {A} (x : M A) s a s' : Zero x -> x s = Ok (a, s') -> sevs s' = sevs s.
Proof. intros H E. destruct (H _ _ _ E) as (evs & K1 & K2 & _). destruct evs as [|e evs]; [exact K1|]. inversion K2; contradiction. Qed.
Lemma one_zero P {A} (x : M A) : Zero x -> One P x.
Proof. intros H s a s' E. left. eapply zero_evs; eauto. Qed.
Lemma one_l P {A B} (x : M A) (f : A -> M B) : Zero x -> (forall a, One P (f a)) -> One P (bind x f).
Proof.
  intros H1 H2 s b s' E. unfold bind in E. destruct (x s) as [[a s1]| | |] eqn:E1; try discriminate. cbn in E.
  rewrite <- (zero_evs _ _ _ _ H1 E1). eapply H2; exact E.
Qed.
Lemma one_r P {A B} (x : M A) (f : A -> M B) : One P x -> (forall a, Zero (f a)) -> One P (bind x f).
Proof.
  intros H1 H2 s b s' E. unfold bind in E. destruct (x s) as [[a s1]| | |] eqn:E1; try discriminate. cbn in E.
  rewrite (zero_evs _ _ _ _ (H2 a) E). eapply H1; exact E1.
Qed.

#[local] Hint Resolve ev_load ev_store ev_abort ev_ub ev_nofuel ev_assume ev_lift ev_getst ev_memcpy ev_ret ev_set_type ev_set_state ev_set_magic
  ev_get_type ev_get_state ev_get_magic ev_get_chunk ev_get_ptr ev_unpad ev_gcu ev_next_chunk ev_prev_chunk ev_setup_chunk ev_setup_macro ev_setup_padded
  ev_stopper ev_insert ev_remove ev_adapted_loop ev_adapted ev_fne ev_find ev_split ev_left ev_right ev_merge ev_prepare : ev.
Definition getev (e : ev) : Prop := exists b z, e = EGet b z.
Definition putev (e : ev) : Prop := exists b, e = EPut b.

Lemma one_request gr z : One getev (source_request gr z).
Proof.
  destruct gr as [b|]; cbn [source_request]; [|apply one_zero, ev_ret]. apply one_r; [|intros ?; unfold Zero; ev_tac].
  intros s a s' E. unfold modst in E. injection E as _ <-. right. exists (EGet b z). split; [exists b, z; reflexivity|reflexivity].
Qed.
Lemma one_request_mem g gr n : One getev (request_mem g gr n).
Proof.
  unfold request_mem. destruct (csrc g); cbn [negb]; [|apply one_zero, ev_ret]. cbv zeta. apply one_r; [apply one_request|].
  intros a. unfold Zero. ev_tac.
Qed.
Lemma one_refill g gr n : One getev (refill_mem g gr n).
Proof.
  unfold refill_mem. repeat first [apply one_r; [apply one_request|intros ?; unfold Zero; ev_tac] | apply one_r; [apply one_request_mem|intros ?; unfold Zero; ev_tac]
    | match goal with |- One _ (if ?b then _ else _) => destruct b end | apply one_zero, ev_ret | apply one_zero; unfold Zero; ev_tac | cbv zeta ].
Qed.
Lemma one_alloc f g gr d n : One getev (alloc_align f g gr d n).
Proof.
  unfold alloc_align. destruct (n =? 0); [apply one_zero, ev_ret|]. cbv zeta. set (z := if 1 <? d then _ else _). destruct (is_huge g z).
  - apply one_r; [apply one_request_mem|]. intros a. unfold Zero. ev_tac.
  - apply one_l; [unfold Zero; ev_tac|]. intros c. apply one_r.
    + destruct (c =? 0); [|apply one_zero, ev_ret]. apply one_r; [apply one_refill|]. intros a. unfold Zero. ev_tac.
    + intros a. unfold Zero. ev_tac.
Qed.
Lemma one_macro g v : One putev (free_macro_bloc g v).
Proof.
  assert (K : forall b, One putev (source_free g b)).
  { intros b s a s' E. unfold source_free in E. destruct (_ && _); [|discriminate]. injection E as _ <-. right. exists (EPut b). split; [exists b; reflexivity|reflexivity]. }
  unfold free_macro_bloc.
  repeat first [ match goal with |- One _ (if ?b then _ else _) => destruct b end | apply one_zero, ev_ret
    | apply one_r; [apply K|intros ?; unfold Zero; ev_tac] | apply one_l; [unfold Zero; solve [ev_tac]|intros ?] | cbv zeta | apply K ].
Qed.
Lemma one_free f g p : One putev (chain_free f g p).
Proof.
  unfold chain_free.
  repeat first [ match goal with |- One _ (if ?b then _ else _) => destruct b end | apply one_macro | apply one_zero; unfold Zero; solve [ev_tac]
    | apply one_l; [unfold Zero; solve [ev_tac]|intros ?] | cbv zeta ].
Qed.

Definition shape (evs : list ev) : Prop := exists bs a, evs = map EPut bs ++ a /\ (a = [] \/ exists b z, a = [EGet b z]).
Lemma shape_nil : shape [].
Proof. exists [], []. auto. Qed.
Lemma shape_get evs : (evs = [] \/ exists e, getev e /\ evs = [e]) -> shape evs.
Proof. intros [->|(e & (b & z & ->) & ->)]; [apply shape_nil|]. exists [], [EGet b z]. split; [reflexivity|]. right. exists b, z. reflexivity. Qed.
Lemma shape_puts evs : Forall ChainEv.is_put evs -> shape evs.
Proof.
  intros H. exists (map (fun e => match e with EPut b => b | EGet b _ => b end) evs), []. split; [|auto]. rewrite app_nil_r.
  induction H as [|e l He H IH]; [reflexivity|]. destruct e; [contradiction|]. cbn. f_equal. exact IH.
Qed.
Lemma shape_put evs : (evs = [] \/ exists e, putev e /\ evs = [e]) -> shape evs.
Proof. intros [->|(e & (b & ->) & ->)]; apply shape_puts; repeat constructor. Qed.

Lemma realloc_shape f g gr h p n s r s' : sevs s = [] -> chain_realloc f g gr h p n s = Ok (r, s') -> shape (sevs s').
Proof.
  intros H0 E. unfold chain_realloc in E.
  destruct ((p =? 0) && (n =? 0)); [injection E as _ <-; rewrite H0; apply shape_nil|].
  destruct (p =? 0). { apply shape_get. rewrite <- H0. exact (one_alloc _ _ _ _ _ _ _ _ E). }
  destruct (n =? 0).
  { apply shape_put. rewrite <- H0. apply (one_r putev (chain_free f g p) (fun _ => ret 0) (one_free f g p) (fun _ => ev_ret _ 0) _ _ _ E). }
  destruct (get_chunk p s) as [[v s1]| | |] eqn:E1; try (unfold bind in E; rewrite E1 in E; discriminate).
  unfold bind at 1 in E. rewrite E1 in E. cbn [rbind] in E. pose proof (zero_evs _ _ _ _ (ev_get_chunk _ p) E1) as S1.
  destruct (v =? 0); [destruct (cstrict g); [discriminate|injection E as _ <-; rewrite S1, H0; apply shape_nil]|].
  unfold bind at 1 in E. destruct (unpad_vchunk v s1) as [[u s2]| | |] eqn:E2; try discriminate. cbn [rbind] in E. pose proof (zero_evs _ _ _ _ (ev_unpad _ v) E2) as S2.
  unfold bind at 1 in E. destruct (vsize u s2) as [[us s3]| | |] eqn:E3; try discriminate. cbn [rbind] in E.
  assert (S3 : sevs s3 = sevs s2) by (apply (zero_evs (vsize u) s2 us s3); [unfold Zero; ev_tac|exact E3]).
  cbv zeta in E. unfold bind at 1 in E.
  match type of E with rbind (?k s3) _ = _ => set (kp := k) in E; assert (Z4 : Zero kp) by (unfold kp, Zero; ev_tac) end.
  destruct (kp s3) as [[keep s4]| | |] eqn:E4; try discriminate. cbn [rbind] in E. pose proof (zero_evs _ _ _ _ Z4 E4) as S4. clear Z4.
  assert (S0 : sevs s4 = []) by congruence.
  destruct keep; [injection E as _ <-; rewrite S0; apply shape_nil|].
  unfold bind at 1 in E. destruct (alloc_align f g gr h n s4) as [[q s5]| | |] eqn:E5; try discriminate. cbn [rbind] in E.
  pose proof (one_alloc _ _ _ _ _ _ _ _ E5) as S5. rewrite S0 in S5.
  unfold bind at 1 in E. match type of E with rbind (?k s5) _ = _ => set (kq := k) in E; assert (Z6 : Zero kq) by (unfold kq, Zero; ev_tac) end.
  destruct (kq s5) as [[? s6]| | |] eqn:E6; try discriminate. cbn [rbind] in E. pose proof (zero_evs _ _ _ _ Z6 E6) as S6. clear Z6.
  unfold bind at 1 in E. destruct (chain_free f g p s6) as [[? s7]| | |] eqn:E7; try discriminate. cbn [rbind] in E. injection E as _ <-.
  pose proof (one_free _ _ _ _ _ _ E7) as S7. rewrite S6 in S7.
  assert (SA : sevs s5 = [] \/ exists b z, sevs s5 = [EGet b z]).
  { destruct S5 as [S5|(e & (b & z & ->) & S5)]; [left; exact S5|right; exists b, z; exact S5]. }
  destruct S7 as [->|(e & (b & ->) & ->)]; [exists [], (sevs s5)|exists [b], (sevs s5)]; split; auto.
Qed.

Lemma step_shape g s o c fuel r s' : reach g s o -> valid g s o c -> step fuel g c s = Ok (r, s') -> shape (sevs s').
Proof.
  intros R V E. unfold step in E. assert (C0 : sevs (clear_ev s) = []) by reflexivity.
  assert (PU : not_refill c -> (forall b z, ~ gets c (EGet b z)) -> shape (sevs s')).
  { intros NR NG. destruct (ev_exec fuel g c NR _ _ _ E) as (evs & K1 & K2 & _). rewrite C0, app_nil_r in K1. rewrite K1. apply shape_puts.
    eapply Forall_impl; [|exact K2]. intros [b z|b] (_ & H); [exfalso; exact (NG b z H)|exact I]. }
  destruct c as [d n gr|p|h p n gr|bb z|x v|p| |m]; try (apply PU; [exact I|intros b z H; exact H]).
  - cbn [exec] in E. apply shape_get. rewrite <- C0. exact (one_alloc _ _ _ _ _ _ _ _ E).
  - cbn [exec] in E. eapply realloc_shape; [exact C0|exact E].
  - cbn [exec] in E. unfold bind in E. destruct (user_refill g bb z (clear_ev s)) as [[t s1]| | |] eqn:E1; try discriminate. injection E as _ <-.
    rewrite (ev_user_refill _ _ _ _ _ _ E1). apply shape_nil.
Qed.

(** The segments given back are distinct. *)
Lemma puts_nodup a : forall bs r, held_ok (map EPut bs ++ a) r -> NoDup bs.
Proof.
  induction bs as [|b bs IH]; intros r H; [constructor|]. cbn [map app held_ok] in H. destruct H as (H1 & H2). constructor; [|exact (IH r H1)].
  intros HI. rewrite fold_right_app in H2. set (l := fold_right apply_ev r a) in H2. clearbody l. clear -HI H2.
  assert (K : forall l bs, In b bs -> ~ In b (map fst (fold_right apply_ev l (map EPut bs)))).
  { clear. intros l. induction bs as [|c bs IH]; intros HI; [contradiction|]. cbn [map fold_right apply_ev]. intros K. apply in_map_iff in K as ((x & z) & E & K).
    apply filter_In in K as (K & K'). cbn in E. subst x. destruct HI as [->|HI]; [lia|]. apply (IH HI). apply in_map_iff. exists (b, z). auto. }
  exact (K l bs HI H2).
Qed.

(** Everything the rest needs to know about the exchanges of a call. *)
Lemma step_evs g s o c fuel r s' : reach g s o -> valid g s o c -> not_refill c -> step fuel g c s = Ok (r, s') ->
  exists bs a, sevs s' = map EPut bs ++ a /\ (a = [] \/ exists b z, a = [EGet b z]) /\ NoDup bs /\
    (forall b, In b bs -> exists z, In (b, z) (segs o)) /\
    (forall x, In x (segs (next o c r (sevs s'))) <-> (In x (segs o) \/ In (EGet (fst x) (snd x)) a) /\ ~ In (fst x) bs).
Proof.
  intros R V NR E. destruct (step_shape _ _ _ _ _ _ _ R V E) as (bs & a & Es & Ha).
  exists bs, a. split; [exact Es|]. split; [exact Ha|].
  destruct (ev_exec fuel g c NR _ _ _ E) as (evs & K1 & K2 & K3 & K4). cbn [clear_ev sevs srng] in K1, K3, K4. rewrite app_nil_r in K1.
  split; [apply (puts_nodup a bs (srng s)); rewrite <- Es, K1; exact K4|].
  assert (HB : forall b, In b bs -> exists z, In (b, z) (segs o)).
  { intros b Hb. destruct (source_put g s o c fuel r s' b R V E) as (_ & H & _); [|exact H]. rewrite Es. apply in_or_app. left. apply in_map. exact Hb. }
  split; [exact HB|].
  assert (ES : segs (next o c r (sevs s')) = fold_right apply_ev (segs o) (sevs s')) by (destruct c; try contradiction; reflexivity).
  assert (NG : forall b z, In (EGet b z) a -> ~ In b bs).
  { intros b z Hg Hb. destruct (HB b Hb) as (z0 & Hz). destruct (gets_new g s o c fuel r s' b z R V E) as (_ & (_ & _ & _ & _ & Q5 & Q6)).
    { rewrite Es. apply in_or_app. right. exact Hg. }
    specialize (Q6 (b, z0) (or_intror Hz)). pose proof (seg_big _ _ _ R _ _ Hz). unfold apart in Q6. cbn [fst snd] in Q6. lia. }
  intros [b z]. rewrite ES, Es, fold_right_app. cbn [fst snd].
  assert (KA : In (b, z) (fold_right apply_ev (segs o) a) <-> In (b, z) (segs o) \/ In (EGet b z) a).
  { destruct Ha as [->|(b1 & z1 & ->)]; cbn [fold_right apply_ev In]; [tauto|]. split.
    - intros [K|K]; [injection K as -> ->; auto|auto].
    - intros [K|[K|[]]]; [auto|injection K as -> ->; auto]. }
  rewrite <- KA. set (l := fold_right apply_ev (segs o) a). clearbody l. clear.
  induction bs as [|c bs IH]; cbn [map fold_right apply_ev In]; [tauto|]. rewrite filter_In, IH. destruct (Z.eqb_spec b c) as [E|E]; cbn [negb].
  - split; [intros (_ & K); discriminate|intros (_ & K); exfalso; apply K; auto].
  - split; [intros ((K1 & K2) & _); split; [exact K1|intros [K|K]; [congruence|contradiction]]|intros (K1 & K2); split; [split; [exact K1|tauto]|reflexivity]].
Qed.

(** ** A refused request asks for memory. *)
Lemma alloc_grant g s o d n b f r0 s0 r s' : reach g s o -> csrc g = true -> n <> 0 -> valid g s o (OAlloc d n None) -> valid g s o (OAlloc d n (Some b)) ->
  step f g (OAlloc d n None) s = Ok (r0, s0) -> r0 = 0 -> step f g (OAlloc d n (Some b)) s = Ok (r, s') ->
  r <> 0 /\ sevs s' = [EGet b (ask_size d n)].
Proof.
  intros R Hc Hn V0 V1 E0 -> E1. destruct (alloc_info _ _ _ _ _ _ _ _ _ R V1 E1) as (H0 & H1).
  assert (r <> 0) as Hr. { intros K. destruct (H0 K) as (_ & [K1|[(_ & K1 & _)|(K1 & _)]]); [lia|discriminate|congruence]. }
  split; [exact Hr|]. destruct (H1 Hr) as (_ & [(K1 & K2)|(b' & _ & K1 & K2 & _)]); [|injection K1 as <-; exact K2].
  exfalso. destruct (alloc_asks f g b d n (clear_ev s)) as [K|K].
  - unfold step in E0, E1. cbn [exec] in E0, E1. rewrite K, E0 in E1. injection E1 as K3 _. congruence.
  - destruct (K _ _ E1) as (z & Hz). rewrite K1 in Hz. contradiction.
Qed.

Lemma realloc_grant g s o h p n b f r0 s0 r s' : reach g s o -> csrc g = true -> n <> 0 -> valid g s o (ORealloc h p n None) -> valid g s o (ORealloc h p n (Some b)) ->
  step f g (ORealloc h p n None) s = Ok (r0, s0) -> r0 = 0 -> step f g (ORealloc h p n (Some b)) s = Ok (r, s') ->
  r <> 0 /\ In (EGet b (ask_size h n)) (sevs s').
Proof.
  intros R Hc Hn V0 V1 E0 -> E1. destruct (reach_good _ _ _ R) as (A & F & G).
  destruct (realloc_info _ _ _ _ _ _ _ _ _ _ _ _ G V1 E1) as (_ & H0 & (H1 & _)).
  assert (r <> 0) as Hr. { intros K. destruct (H0 K) as [K1|[(_ & K1 & _)|(K1 & _)]]; [lia|discriminate|congruence]. }
  split; [exact Hr|]. destruct (realloc_asks f g b h p n (clear_ev s)) as [K|K].
  - exfalso. unfold step in E0, E1. cbn [exec] in E0, E1. rewrite K, E0 in E1. injection E1 as K3 _. congruence.
  - destruct (K _ _ E1) as (z & Hz). destruct (H1 b z Hz) as (_ & _ & ->). exact Hz.
Qed.
