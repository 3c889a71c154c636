(** The invariant of a chain together with the blocks the program holds; transitions of the operations. *)
From Verif Require Import Word Res Mem SizeClassModel SizeClassProofs ChainModel Wp ChainInv ChainZip ChainList ChainFl ChainPrim ChainFind ChainSplit ChainMerge ChainOps ChainAlloc ChainFree ChainSpec.
From Coq Require Import ZArith List Bool Lia Permutation.
Import ListNotations.
Open Scope Z_scope.

Definition entry : Type := Z * Z * Z * Z.
Definition eptr (u : entry) : Z := fst (fst (fst u)).
Definition eend (u : entry) : Z := snd u.
Definition strip (u : entry) : blk := mkBlk (eptr u) (snd (fst (fst u))) (snd (fst u)).

(** ** Used entries *)
Lemma used_from_range m l : forall a pv p n d e, cks m a pv l -> In (p, n, d, e) (used_from a l) ->
  a + 16 <= p /\ p + 16 <= e /\ 1 <= n /\ p + n <= e /\ e <= a + tot l.
Proof.
  induction l as [|[c k] l IH]; intros a pv p n d e H HI; cbn [used_from cks tot] in *; [contradiction|].
  destruct H as (H1 & H2 & H3 & H4 & H5). assert (T := cks_tot _ _ _ _ H5).
  apply in_app_or in HI. destruct HI as [HI|HI].
  - destruct k; cbn in HI; try contradiction. destruct HI as [E|[]]. injection E as <- <- <- <-.
    cbn [kok] in H4. lia.
  - specialize (IH _ _ _ _ _ _ H5 HI). lia.
Qed.

Definition esep (u v : entry) : Prop := eend u <= eptr v - 16 \/ eend v <= eptr u - 16.

Lemma used_from_sep m l : forall a pv, cks m a pv l -> ForallOrdPairs esep (used_from a l).
Proof.
  induction l as [|[c k] l IH]; intros a pv H; cbn [used_from cks] in *; [constructor|].
  destruct H as (H1 & H2 & H3 & H4 & H5). specialize (IH _ _ H5).
  destruct k as [| |p n d]; cbn [app]; auto. constructor; [|exact IH].
  apply Forall_forall. intros (((p' & n') & d') & e') HI.
  assert (R := used_from_range _ _ _ _ _ _ _ _ H5 HI). left. cbn. lia.
Qed.

Lemma used_in g r m A p n d e : World g r m A -> In (p, n, d, e) (used A) ->
  exists sg, In sg A /\ gbase sg + 48 <= p /\ p + 16 <= e /\ 1 <= n /\ p + n <= e /\ e <= gbase sg + gsize sg - 16.
Proof.
  intros W H. unfold used in H. rewrite in_flat_map in H. destruct H as (sg & H1 & H2). exists sg. split; [exact H1|].
  destruct (w_segok _ _ _ _ W _ H1) as (_ & _ & K3 & _ & _ & K6 & _).
  assert (R := used_from_range _ _ _ _ _ _ _ _ K6 H2). lia.
Qed.

Lemma used_sep g r m A : World g r m A -> ForallOrdPairs esep (used A).
Proof.
  intros W. assert (WS := wd_seg _ _ _ _ W). assert (WD := wd_disj _ _ _ _ W). rewrite (wd_rng _ _ _ _ W) in WD.
  apply FOP_app in WD as (WD & _). clear W.
  induction A as [|sg A IH]; cbn [used flat_map]; [constructor|].
  inversion WS as [|? ? H1 H2]; subst. cbn [map] in WD. inversion WD as [|? ? H3 H4]; subst.
  specialize (IH H2 H4). fold (used A). apply FOP_app. split.
  { destruct H1 as (_ & _ & _ & _ & _ & H & _). eapply used_from_sep; eauto. }
  split; [exact IH|]. intros (((p & n) & d) & e) (((p' & n') & d') & e') HI HI'.
  unfold used in HI'. rewrite in_flat_map in HI'. destruct HI' as (sg' & J1 & J2).
  rewrite Forall_forall in H2, H3. assert (D := H3 (segr sg') (in_map _ _ _ J1)). specialize (H2 _ J1).
  destruct H1 as (_ & _ & K3 & _ & _ & K6 & _). destruct H2 as (_ & _ & K3' & _ & _ & K6' & _).
  assert (R := used_from_range _ _ _ _ _ _ _ _ K6 HI). assert (R' := used_from_range _ _ _ _ _ _ _ _ K6' J2).
  unfold disj2, segr in D. cbn [fst snd] in D. unfold esep, eend, eptr. cbn [fst snd]. lia.
Qed.

Lemma used_nodup g r m A : World g r m A -> NoDup (map eptr (used A)).
Proof.
  intros W. assert (S := used_sep _ _ _ _ W).
  assert (B : forall u, In u (used A) -> eptr u + 16 <= eend u).
  { intros (((p & n) & d) & e) H. apply (used_in _ _ _ _ _ _ _ _ W) in H as (sg & _ & _ & H & _). exact H. }
  induction S as [|u l H1 H2 IH]; cbn [map]; [constructor|].
  constructor; [|apply IH; intros v Hv; apply B; right; exact Hv].
  intros HI. apply in_map_iff in HI as (v & E & HI). rewrite Forall_forall in H1. specialize (H1 _ HI).
  assert (B1 := B u (or_introl eq_refl)). assert (B2 := B v (or_intror HI)). unfold esep in H1. lia.
Qed.

Lemma liveb_used l x : forall a p n d e, In (p, n, d, e) (used_from a l) -> p <= x < e -> liveb a l x.
Proof.
  induction l as [|[c k] l IH]; intros a p n d e H Hx; cbn [used_from liveb] in *; [contradiction|].
  apply in_app_or in H. destruct H as [H|H].
  - destruct k; cbn in H; try contradiction. destruct H as [E|[]]. injection E as <- <- <- <-. left. exact Hx.
  - right. eapply IH; eauto.
Qed.

Lemma used_not_scratch g r m A p n d e x : World g r m A -> In (p, n, d, e) (used A) -> p <= x < e -> ~ scratch g A x.
Proof.
  intros W H Hx HS. assert (H0 := H).
  unfold used in H. rewrite in_flat_map in H. destruct H as (sg & H1 & H2).
  destruct (w_segok _ _ _ _ W _ H1) as (_ & _ & K3 & _ & _ & K6 & _).
  assert (R := used_from_range _ _ _ _ _ _ _ _ K6 H2).
  destruct HS as [HS|(sg' & J1 & J2 & J3)].
  - assert (D := w_pool_disj _ _ _ _ W _ H1). unfold disj2 in D. cbn [fst snd] in D. lia.
  - destruct (w_segs_eq_or_disj _ _ _ _ W _ _ H1 J1) as [<-|D].
    + apply J3. eapply liveb_used; eauto.
    + unfold disj2 in D. cbn [fst snd] in D. lia.
Qed.

Lemma liveb_dec l x : forall a, liveb a l x \/ ~ liveb a l x.
Proof.
  induction l as [|[c k] l IH]; intros a; cbn [liveb]; [right; tauto|]. destruct (IH (a + c)) as [H|H]; [left; right; exact H|].
  destruct k as [| |p n d]; [right; tauto|right; tauto|]. destruct (Z_le_dec p x); destruct (Z_lt_dec x (a + c)); [left; left; lia|right; intros [J|J]; [lia|contradiction]..].
Qed.
Lemma scratch_dec g A x : scratch g A x \/ ~ scratch g A x.
Proof.
  unfold scratch. destruct (Z_le_dec (cpool g) x); destruct (Z_lt_dec x (cpool g + POOL_SIZE)); [left; left; lia| | |].
  all: assert (K : (exists sg, In sg A /\ gbase sg <= x < gbase sg + gsize sg /\ ~ liveb (gbase sg + 32) (gchunks sg) x) \/
    ~ exists sg, In sg A /\ gbase sg <= x < gbase sg + gsize sg /\ ~ liveb (gbase sg + 32) (gchunks sg) x);
    [|destruct K as [K|K]; [left; right; exact K|right; intros [J|J]; [lia|contradiction]]].
  all: induction A as [|sg A IH]; [right; intros (sg & [] & _)|].
  all: destruct IH as [(sg' & J1 & J2)|IH]; [left; exists sg'; split; [right; exact J1|exact J2]|].
  all: destruct (liveb_dec (gchunks sg) x (gbase sg + 32)) as [J|J];
    [right; intros (sg' & [<-|J1] & J2 & J3); [contradiction|apply IH; exists sg'; auto]|].
  all: destruct (Z_le_dec (gbase sg) x); destruct (Z_lt_dec x (gbase sg + gsize sg));
    [left; exists sg; split; [left; reflexivity|split; [lia|exact J]]|
     right; intros (sg' & [<-|J1] & J2 & J3); [lia|apply IH; exists sg'; auto]..].
Qed.

Lemma scratch_rng g r m A x : World g r m A -> scratch g A x -> exists b z, In (b, z) r /\ b <= x < b + z.
Proof.
  intros W [H|(sg & H1 & H2 & _)].
  - exists (cpool g), POOL_SIZE. split; [apply (w_pool_rng _ _ _ _ W)|exact H].
  - exists (gbase sg), (gsize sg). split; [apply (w_in_rng _ _ _ _ W _ H1)|exact H2].
Qed.

Definition rest_used S1 b l1 e l2 S2 : list entry := used S1 ++ used_from (b + 32) l1 ++ used_from e l2 ++ used S2.
Lemma used_perm S1 b z l1 mid l2 S2 a e : a = b + 32 + tot l1 -> e = a + tot mid ->
  Permutation (used (S1 ++ mkSeg b z (l1 ++ mid ++ l2) :: S2)) (used_from a mid ++ rest_used S1 b l1 e l2 S2).
Proof.
  intros -> ->. rewrite used_mid, !used_from_app. unfold rest_used.
  rewrite <- !app_assoc. rewrite (app_assoc (used S1) (used_from (b + 32) l1) (used_from _ mid ++ _)).
  rewrite (app_assoc (used S1) (used_from (b + 32) l1) (used_from _ l2 ++ _)).
  apply Permutation_app_swap_app.
Qed.
Lemma nous_used l : forall a, nous l -> used_from a l = [].
Proof.
  induction l as [|[c k] l IH]; intros a H; [reflexivity|]. inversion H as [|? ? H1 H2]; subst. cbn [used_from snd] in *.
  rewrite IH by exact H2. destruct k; [reflexivity|reflexivity|contradiction].
Qed.
Lemma allfr_nous l : allfr l -> nous l.
Proof. apply Forall_impl. intros ck ->. exact I. Qed.

(** ** Adjacent free chunks *)
Definition isfr (ck : chunk) : bool := match snd ck with Fr => true | _ => false end.
Definition firstfr (l : list chunk) : bool := match l with ck :: _ => isfr ck | [] => false end.
Fixpoint lastfr (l : list chunk) : bool := match l with [] => false | [ck] => isfr ck | _ :: l' => lastfr l' end.
Fixpoint noadj (l : list chunk) : Prop :=
  match l with [] => True | ck :: l' => (isfr ck = true -> firstfr l' = false) /\ noadj l' end.

Lemma noadj_app l1 l2 : noadj (l1 ++ l2) <-> noadj l1 /\ noadj l2 /\ (lastfr l1 = true -> firstfr l2 = false).
Proof.
  induction l1 as [|x l1 IH]; cbn [app noadj lastfr].
  - intuition discriminate.
  - rewrite IH. destruct l1 as [|y l1]; cbn [app firstfr noadj lastfr]; [tauto|]. cbn [noadj] in *. tauto.
Qed.
Lemma begfr_first l : firstfr l = true -> begfr l.
Proof. destruct l as [|[c k] l]; cbn; [discriminate|]. destruct k; try discriminate. intros _. exists l, c. reflexivity. Qed.
Lemma endfr_last l : lastfr l = true -> endfr l.
Proof.
  induction l as [|[c k] l IH]; cbn [lastfr]; [discriminate|]. destruct l as [|y l].
  - cbn. destruct k; try discriminate. intros _. exists [], c. reflexivity.
  - intros H. destruct (IH H) as (l0 & c0 & ->). exists ((c, k) :: l0), c0. reflexivity.
Qed.
Lemma allfr_noadj l : allfr l -> noadj l -> l = [] \/ exists c, l = [(c, Fr)].
Proof.
  intros H N. destruct l as [|[c k] [|[c' k'] l]]; [left; reflexivity| |].
  - inversion H; subst. cbn in *. subst k. right. exists c. reflexivity.
  - inversion H as [|? ? H1 H2]; subst. inversion H2 as [|? ? H3 H4]; subst. cbn in *. subst. destruct N as (N & _).
    discriminate (N eq_refl).
Qed.

(** ** The invariant with the blocks *)
Definition shape (sg : seg) : Prop :=
  gsize sg mod MACRO_BLOC = 0 /\
  ((exists p n d, gchunks sg = [(gsize sg - 48, Us p n d)]) \/
   (gsize sg = MACRO_BLOC /\ forall c k, In (c, k) (gchunks sg) -> k <> Fr -> c <= HUGE_LIMIT + 16)).

Record Core (g : cfg) (s : st) (B : list blk) (A : list seg) (F : Z -> list Z) : Prop := {
  co_inv : Inv g s A F;
  co_live : Permutation (map strip (used A)) B;
  co_al : forall sg, In sg A -> gbase sg mod 8 = 0;
  co_merge : cmerge g = true -> forall sg, In sg A -> noadj (gchunks sg);
  co_lk : forall sg c, In sg A -> In (c, Lk) (gchunks sg) -> csrc g = true /\ HUGE_LIMIT <= c <= HUGE_LIMIT + 16;
  co_src : csrc g = true -> sbase s = 0 /\ scnt s = Z.of_nat (length A) /\ forall sg, In sg A -> shape sg;
  co_busy : csrc g = true -> cmerge g = true -> forall sg, In sg A -> exists ck, In ck (gchunks sg) /\ snd ck <> Fr;
  co_base : csrc g = false -> (A = [] /\ sbase s = 0) \/
    exists A0 sg, A = A0 ++ [sg] /\ sbase s = gbase sg /\ send s = gbase sg + gsize sg
}.

(** What an operation changes: exchanges with the source, the blocks in [out]; all other blocks keep place and
    content; memory outside the ranges of the chain is not written. *)
Definition trans (s : st) (A : list seg) (s' : st) (A' : list seg) (out : Z -> Prop) (evs : list ev) : Prop :=
  sevs s' = evs ++ sevs s /\ map segr A' = fold_right apply_ev (map segr A) evs /\
  rqh s' = rqh s /\ rqt s' = rqt s /\
  (forall q n d e, In (q, n, d, e) (used A) -> ~ out q ->
     In (q, n, d, e) (used A') /\ forall x, q <= x < e -> smem s' x = smem s x) /\
  (forall x, (forall b z, In (b, z) (srng s) \/ In (EGet b z) evs -> ~ b <= x < b + z) -> smem s' x = smem s x).

Lemma trans_refl s A out : trans s A s A out [].
Proof. repeat split; auto. Qed.

Lemma apply_evs_in r evs l : In r (fold_right apply_ev l evs) -> In r l \/ exists b z, r = (b, z) /\ In (EGet b z) evs.
Proof.
  induction evs as [|e evs IH]; cbn [fold_right]; [auto|]. destruct e as [b z|b]; cbn [apply_ev].
  - intros [<-|H]; [right; exists b, z; split; [reflexivity|left; reflexivity]|].
    destruct (IH H) as [K|(b' & z' & K1 & K2)]; [left; exact K|right; exists b', z'; split; [exact K1|right; exact K2]].
  - intros H. apply filter_In in H as (H & _).
    destruct (IH H) as [K|(b' & z' & K1 & K2)]; [left; exact K|right; exists b', z'; split; [exact K1|right; exact K2]].
Qed.

Lemma trans_trans g s A s' A' s'' A'' out out' evs evs' :
  World g (srng s) (smem s) A -> World g (srng s') (smem s') A' ->
  trans s A s' A' out evs -> trans s' A' s'' A'' out' evs' ->
  trans s A s'' A'' (fun q => out q \/ out' q) (evs' ++ evs).
Proof.
  intros W W' (T1 & T2 & T3 & T4 & T5 & T6) (U1 & U2 & U3 & U4 & U5 & U6).
  split; [rewrite U1, T1, app_assoc; reflexivity|].
  split; [rewrite U2, T2, fold_right_app; reflexivity|].
  split; [congruence|]. split; [congruence|]. split.
  - intros q n d e H1 H2. destruct (T5 q n d e H1 ltac:(tauto)) as (K1 & K2).
    destruct (U5 q n d e K1 ltac:(tauto)) as (K3 & K4). split; [exact K3|].
    intros x Hx. rewrite K4, K2 by exact Hx. reflexivity.
  - intros x Hx. rewrite U6, T6; [reflexivity| |].
    + intros b z [K|K]; apply Hx; [left; exact K|right; apply in_or_app; right; exact K].
    + intros b z [K|K].
      * rewrite (wd_rng _ _ _ _ W') in K. rewrite T2 in K. apply in_app_or in K. destruct K as [K|K].
        -- apply apply_evs_in in K as [K|(b' & z' & K1 & K2)].
           ++ apply Hx. left. rewrite (wd_rng _ _ _ _ W). apply in_or_app. left. exact K.
           ++ injection K1 as <- <-. apply Hx. right. apply in_or_app. right. exact K2.
        -- apply Hx. left. rewrite (wd_rng _ _ _ _ W). apply in_or_app. right. exact K.
      * apply Hx. right. apply in_or_app. left. exact K.
Qed.

(** ** Blocks *)
Lemma rm_other p l : (forall b, In b l -> bp b <> p) -> rm p l = l.
Proof.
  induction l as [|x l IH]; intros H; [reflexivity|]. cbn [rm filter].
  destruct (Z.eqb_spec (bp x) p) as [E|E]; [exfalso; exact (H x (or_introl eq_refl) E)|]. cbn [negb]. fold (rm p l). rewrite IH; [reflexivity|].
  intros b Hb. apply H. right. exact Hb.
Qed.
Lemma perm_filter {T} (f : T -> bool) l l' : Permutation l l' -> Permutation (filter f l) (filter f l').
Proof.
  induction 1 as [|x l l' H IH|x y l|l l' l'' H1 IH1 H2 IH2]; cbn [filter]; auto.
  - destruct (f x); auto.
  - destruct (f x), (f y); auto. apply perm_swap.
  - eapply Permutation_trans; eauto.
Qed.
(** The entry of a block, and the other ones. *)
Lemma core_rm (B : list blk) (u : entry) U : Permutation (map strip (u :: U)) B -> NoDup (map eptr (u :: U)) ->
  Permutation (map strip U) (rm (eptr u) B).
Proof.
  intros H N. apply (perm_filter (fun b => negb (bp b =? eptr u))) in H. fold (rm (eptr u) B) in H.
  cbn [map filter] in H. replace (bp (strip u)) with (eptr u) in H by reflexivity. rewrite Z.eqb_refl in H. cbn [negb] in H.
  fold (rm (eptr u) (map strip U)) in H.
  rewrite rm_other in H; [exact H|]. cbn [map] in N. inversion N as [|? ? N1 N2]; subst.
  intros b Hb E. apply in_map_iff in Hb as (v & <- & Hv). apply N1. rewrite <- E. change (bp (strip v)) with (eptr v). apply in_map. exact Hv.
Qed.
Lemma core_in g s B A F p n d : Core g s B A F -> In (mkBlk p n d) B -> exists e, In (p, n, d, e) (used A).
Proof.
  intros C H. apply Permutation_in with (1 := Permutation_sym (co_live _ _ _ _ _ C)) in H.
  apply in_map_iff in H as ((((p' & n') & d') & e) & E & H). injection E as <- <- <-. exists e. exact H.
Qed.

(** ** Requests *)
Lemma pow2_bd d : (d = 0 \/ exists k, 0 <= k /\ d = 2 ^ k) -> 0 <= d /\ (1 < d -> 8 mod d = 0 \/ d mod 16 = 0).
Proof.
  intros [->|(k & Hk & ->)]; [lia|]. assert (0 < 2 ^ k) by (apply Z.pow_pos_nonneg; lia). split; [lia|].
  intros _. destruct (Z_lt_dec k 4) as [L|L].
  - left. assert (K : k = 0 \/ k = 1 \/ k = 2 \/ k = 3) by lia. destruct K as [-> |[-> |[-> | -> ]]]; reflexivity.
  - right. replace k with (k - 4 + 4) by lia. rewrite Z.pow_add_r by lia. change (2 ^ 4) with 16. apply Z.mod_mul. lia.
Qed.

Lemma asked_padsz d n : asked d n = padsz d n. Proof. reflexivity. Qed.
Lemma huge_iff g d n : 0 <= n -> 0 <= d -> n + d < S63 - 64 -> csrc g = true ->
  is_huge g (padsz d n) = (1048576 - 16 <? asked d n).
Proof.
  intros Hn Hd Hm Hc. unfold is_huge. rewrite Hc. cbn [andb]. rewrite S63_val in Hm.
  assert (0 <= padsz d n < S63 - 64) by (rewrite S63_val; unfold padsz; destruct (1 <? d); lia).
  assert (BS := S63_val). rewrite calc_small by lia. unfold HUGE_LIMIT. change (asked d n) with (padsz d n). lia.
Qed.
Lemma ask_request g d n : 0 <= n -> 0 <= d -> n + d < S63 - 64 -> csrc g = true -> request_size g d n = ask_size d n.
Proof.
  intros Hn Hd Hm Hc. unfold request_size, ask_size. rewrite huge_iff by auto.
  destruct (1048576 - 16 <? asked d n); [|reflexivity]. change (asked d n) with (padsz d n).
  unfold reqsize, MACRO_BLOC. cbv zeta. destruct (Z.eqb_spec ((padsz d n + 48) mod 2097152) 0) as [E|E]; lia.
Qed.
Lemma ask_size_min d n : 0 <= n -> 0 <= d -> 2097152 <= ask_size d n /\ ask_size d n mod 2097152 = 0.
Proof.
  intros Hn Hd. unfold ask_size, asked. destruct (1 <? d) eqn:E1, (1048576 - 16 <? _) eqn:E2; lia.
Qed.

Definition seg_live (A : list seg) : list (Z * Z) := map segr A.

Lemma new_range_fresh g s A F o b z : Inv g s A F -> segs o = map segr A -> new_range g o b z -> fresh s b z /\ b mod 8 = 0 /\ 80 < z.
Proof.
  intros IV E (H1 & H2 & H3 & H4 & H5 & H6). change (2 ^ 56) with AMAX in H2. split; [|split; assumption].
  split; [exact H1|]. split; [exact H2|]. split; [exact H4|]. split; [lia|].
  intros x Hx. rewrite (wd_rng _ _ _ _ (iv_w _ _ _ _ IV)) in Hx. apply H6. rewrite E.
  apply in_app_or in Hx. destruct Hx as [Hx|[<-|[]]]; [right; exact Hx|left; reflexivity].
Qed.

Lemma in_mid {T} (x y : T) S1 S2 : In x (S1 ++ y :: S2) <-> x = y \/ In x (S1 ++ S2).
Proof. rewrite !in_app_iff. cbn [In]. split; [intros [H|[H|H]]; auto|intros [H|[H|H]]; auto]. Qed.

(** Size of a new block: what the request needs, or 16 bytes more; a request above 1 MB - 16 gets its whole segment. *)
Definition fits (g : cfg) (d n u : Z) : Prop :=
  if csrc g && (1048576 - 16 <? asked d n) then u <= ask_size d n - 64 /\ (d <= 1 -> u = ask_size d n - 64)
  else u <= room d n /\ (d <= 1 -> u = room d n - 16 \/ u = room d n).

Lemma fits_pool d n c1 c k u : 0 <= n -> 0 <= d -> n + d < S63 - 64 -> k = align16 (calc_chunk_size (padsz d n)) ->
  c1 mod 16 = 0 -> c1 < k + 32 -> calc_chunk_size (padsz d n) <= c -> c1 = c \/ c1 = k -> u <= c1 - 16 -> (d <= 1 -> u = c1 - 16) ->
  u <= room d n /\ (d <= 1 -> u = room d n - 16 \/ u = room d n).
Proof.
  intros Hn Hd Hm -> H1 H2 H3 H4 H5 H6. assert (BS := S63_val). assert (BW := W64_val).
  assert (0 <= padsz d n < S63 - 64) by (unfold padsz; destruct (1 <? d); lia).
  rewrite calc_small in * by lia.
  assert (EK : align16 (Z.max 32 (padsz d n + 16)) = room d n).
  { unfold align16, w64. rewrite Z.mod_small by lia. unfold room. change (asked d n) with (padsz d n). lia. }
  rewrite EK in *. assert (room d n mod 16 = 0) by (unfold room; lia).
  assert (room d n <= c1) by (destruct H4 as [->| ->]; [unfold room in *; change (asked d n) with (padsz d n) in *; lia|lia]).
  split; [lia|]. intros L. specialize (H6 L). lia.
Qed.

Lemma alloc_core fuel g s B A F o grant d n :
  Core g s B A F -> segs o = map segr A -> request_ok g o d n grant ->
  bytes A + (if csrc g then ask_size d n else 0) < Z.of_nat fuel ->
  wp (alloc_align fuel g grant d n) s (fun r s' => exists A' F' evs,
    Core g s' (if r =? 0 then B else mkBlk r n d :: B) A' F' /\ trans s A s' A' (fun _ => False) evs /\
    bytes A' <= bytes A + (if csrc g then ask_size d n else 0) /\
    (r = 0 -> s' = s /\ A' = A /\ F' = F /\ (n = 0 \/ (csrc g = true /\ grant = None /\ (huge d n \/
         forall a c, In (a, c) (frees A) -> c <= MACRO_BLOC -> c < calc_chunk_size (padsz d n))) \/
       (csrc g = false /\ forall a c, In (a, c) (frees A) -> c <= MACRO_BLOC -> c < calc_chunk_size (padsz d n)))) /\
    (r <> 0 -> 1 <= n /\ (forall m dd e, ~ In (r, m, dd, e) (used A)) /\ (exists e, In (r, n, d, e) (used A') /\ fits g d n (e - r)) /\
       ((evs = [] /\ exists a c, In (a, c) (frees A) /\ calc_chunk_size (padsz d n) <= c) \/
        (exists b, csrc g = true /\ grant = Some b /\ evs = [EGet b (ask_size d n)] /\
           (huge d n \/ forall a c, In (a, c) (frees A) -> c <= MACRO_BLOC -> c < calc_chunk_size (padsz d n)))))).
Proof.
  intros C Eo (R1 & R2 & R3 & R4 & R5) Hf.
  destruct (pow2_bd _ R2) as (D0 & D1). change (2 ^ 63) with S63 in R3.
  assert (IV := co_inv _ _ _ _ _ C).
  assert (AS := ask_size_min d n R1 D0).
  eapply wp_mono; [eapply (alloc_spec fuel g s A F grant d n); [exact IV|exact R1|exact D0| |exact R3| | |]|].
  - intros L. split; [exact (D1 L)|exact (co_al _ _ _ _ _ C)].
  - intros H. assert (Hc : csrc g = true) by (unfold is_huge in H; destruct (csrc g); [reflexivity|discriminate]).
    rewrite huge_iff in H by auto. assert (Hh : huge d n) by (unfold huge; lia). specialize (R4 Hc Hh).
    change (asked d n) with (padsz d n) in R4. unfold reqsize, MACRO_BLOC. cbv zeta.
    destruct (Z.eqb_spec ((padsz d n + 48) mod 2097152) 0) as [E|E]; lia.
  - intros gb Hc Eg. rewrite ask_request by auto. specialize (R5 Hc gb Eg).
    destruct (new_range_fresh _ _ _ _ _ _ _ IV Eo R5) as (K1 & K2 & _). split; [exact K1|intros _; exact K2].
  - destruct (csrc g); unfold MACRO_BLOC; lia.
  - intros r s' [(Er & Es & Hw)|(Hr & Hn & new & S1 & b & z & l1 & c & l2 & S2 & c1 & rest & F' & Hnew & EA & IV' & MO & CH & Hrest & Hh & P1 & P2)].
    { subst r s'. exists A, F, []. rewrite Z.eqb_refl. split; [exact C|]. split; [apply trans_refl|].
      split; [destruct (csrc g); lia|].
      split; [intros _; split; [reflexivity|]; split; [reflexivity|]; split; [reflexivity|]|].
      { destruct Hw as [Hw|[(Hc & Hg & [Hw|Hw])|Hw]]; [left; exact Hw|right; left|right; left|right; right; exact Hw]; (split; [exact Hc|]; split; [exact Hg|]).
        - left. rewrite (huge_iff g d n R1 D0 R3 Hc) in Hw. unfold huge. lia.
        - right. exact Hw. }
      intros K. contradiction. }
    set (A' := S1 ++ mkSeg b z (l1 ++ (c1, Us r n d) :: rest ++ l2) :: S2) in *.
    assert (W := iv_w _ _ _ _ IV). assert (W' := iv_w _ _ _ _ IV').
    assert (UA : used (A_of A new) = used A).
    { destruct new as [(gb, z0)|]; reflexivity. }
    set (evs := match new with None => [] | Some (gb, z0) => [EGet gb z0] end).
    assert (Hz : forall gb z0, new = Some (gb, z0) -> csrc g = true /\ grant = Some gb /\ z0 = ask_size d n /\ fresh s gb z0 /\ gb mod 8 = 0).
    { intros gb z0 E. destruct Hnew as [->|(gb' & Hc & Eg & E')]; [discriminate|].
      rewrite E' in E. injection E as -> <-. rewrite ask_request by auto.
      specialize (R5 Hc gb Eg). destruct (new_range_fresh _ _ _ _ _ _ _ IV Eo R5) as (K1 & K2 & _). auto. }
    assert (ESG : map segr A' = map segr (A_of A new)).
    { rewrite EA. unfold A'. rewrite !map_app. reflexivity. }
    assert (TT : tot ((c1, Us r n d) :: rest) = c).
    { cbn [tot]. destruct Hrest as [(-> & ->)|(-> & ->)]; cbn [tot]; lia. }
    assert (UR : nous rest).
    { destruct Hrest as [(-> & _)|(-> & _)]; repeat constructor. }
    set (a := b + 32 + tot l1) in *.
    assert (PU : Permutation (used (A_of A new)) (rest_used S1 b l1 (a + c) l2 S2)).
    { rewrite EA. change (l1 ++ (c, Fr) :: l2) with (l1 ++ [(c, Fr)] ++ l2).
      apply (used_perm S1 b z l1 [(c, Fr)] l2 S2 a (a + c)); [reflexivity|cbn [tot]; lia]. }
    assert (PU' : Permutation (used A') ((r, n, d, a + c1) :: rest_used S1 b l1 (a + c) l2 S2)).
    { unfold A'. change (l1 ++ (c1, Us r n d) :: rest ++ l2) with (l1 ++ ((c1, Us r n d) :: rest) ++ l2).
      eapply Permutation_trans; [apply (used_perm S1 b z l1 _ l2 S2 a (a + c)); [reflexivity|lia]|].
      cbn [used_from app]. rewrite nous_used by exact UR. apply Permutation_refl. }
    assert (PP : Permutation (used A') ((r, n, d, a + c1) :: used A)).
    { eapply Permutation_trans; [exact PU'|]. apply perm_skip. rewrite <- UA. apply Permutation_sym. exact PU. }
    assert (BY : bytes A' = bytes (A_of A new)).
    { unfold bytes. assert (E : forall X, map gsize X = map snd (map segr X)) by (intros X; rewrite map_map; reflexivity).
      rewrite !E, ESG. reflexivity. }
    exists A', F', evs. split; [|split; [|split; [|split]]].
    + (* Core *)
      destruct (Z.eqb_spec r 0) as [Er0|Er0]; [contradiction|].
      constructor.
      * exact IV'.
      * eapply Permutation_trans; [apply Permutation_map; exact PP|]. cbn [map]. apply perm_skip. apply (co_live _ _ _ _ _ C).
      * intros sg Hsg. assert (HI : In (segr sg) (map segr (A_of A new))) by (rewrite <- ESG; apply in_map; exact Hsg).
        apply in_map_iff in HI as (sg' & E & HI). injection E as E1 E2. rewrite <- E1.
        destruct new as [(gb, z0)|]; cbn [A_of] in HI; [|exact (co_al _ _ _ _ _ C _ HI)].
        destruct HI as [<-|HI]; [apply (Hz gb z0 eq_refl)|exact (co_al _ _ _ _ _ C _ HI)].
      * intros Hm. assert (NA : forall sg, In sg (A_of A new) -> noadj (gchunks sg)).
        { intros sg HI. destruct new as [(gb, z0)|]; cbn [A_of] in HI; [|exact (co_merge _ _ _ _ _ C Hm _ HI)].
          destruct HI as [<-|HI]; [split; [reflexivity|exact I]|exact (co_merge _ _ _ _ _ C Hm _ HI)]. }
        rewrite EA in NA. intros sg HI. unfold A' in HI. apply in_mid in HI as [->|HI].
        2:{ apply NA. apply in_mid. right. exact HI. }
        specialize (NA (mkSeg b z (l1 ++ (c, Fr) :: l2)) ltac:(apply in_mid; left; reflexivity)). cbn [gchunks] in *.
        apply noadj_app in NA as (N1 & N2 & N3). cbn [noadj firstfr] in N2. destruct N2 as (N2 & N4). specialize (N2 eq_refl).
        apply noadj_app. split; [exact N1|]. split; [|intros _; reflexivity].
        destruct Hrest as [(-> & ->)|(-> & ->)]; cbn [app noadj firstfr isfr snd].
        -- split; [discriminate|exact N4].
        -- split; [discriminate|]. split; [intros _; exact N2|exact N4].
      * intros sg c0 HI HL. unfold A' in HI. apply in_mid in HI as [->|HI].
        -- cbn [gchunks] in HL.
           assert (HL' : In (c0, Lk) (l1 ++ (c, Fr) :: l2)).
           { apply in_app_or in HL. apply in_or_app. destruct HL as [HL|HL]; [left; exact HL|right]. right.
             destruct HL as [HL|HL]; [discriminate|]. apply in_app_or in HL. destruct HL as [HL|HL]; [|exact HL].
             destruct Hrest as [(-> & _)|(-> & _)]; [contradiction|]. destruct HL as [HL|[]]. discriminate. }
           assert (HS : In (mkSeg b z (l1 ++ (c, Fr) :: l2)) (A_of A new)) by (rewrite EA; apply in_mid; left; reflexivity).
           destruct new as [(gb, z0)|]; cbn [A_of] in HS; [|exact (co_lk _ _ _ _ _ C _ _ HS HL')].
           destruct HS as [HS|HS]; [|exact (co_lk _ _ _ _ _ C _ _ HS HL')].
           injection HS as <- <- E. rewrite <- E in HL'. destruct HL' as [HL'|[]]. discriminate.
        -- assert (HS : In sg (A_of A new)) by (rewrite EA; apply in_mid; right; exact HI).
           destruct new as [(gb, z0)|]; cbn [A_of] in HS; [|exact (co_lk _ _ _ _ _ C _ _ HS HL)].
           destruct HS as [<-|HS]; [|exact (co_lk _ _ _ _ _ C _ _ HS HL)].
           destruct HL as [HL|[]]. discriminate.
      * intros Hc. destruct (co_src _ _ _ _ _ C Hc) as (K1 & K2 & K3).
        rewrite (memonly_base _ _ MO), (memonly_cnt _ _ MO).
        assert (LA : length A' = length (A_of A new)) by (rewrite <- (map_length segr A'), ESG, map_length; reflexivity).
        split; [destruct new as [(gb, z0)|]; exact K1|].
        split. { rewrite LA. destruct new as [(gb, z0)|]; cbn [s_of A_of grown set_cnt scnt length]; lia. }
        intros sg HI. unfold A' in HI. apply in_mid in HI as [->|HI].
        -- destruct (is_huge g (padsz d n)) eqn:Eh.
           ++ destruct Hh as (N1 & -> & -> & -> & -> & ->). destruct new as [(gb, z0)|]; [|contradiction].
              cbn [A_of] in EA. injection EA as E1 E2 E3. destruct (Hz gb z0 eq_refl) as (_ & _ & Z1 & _).
              destruct Hrest as [(_ & ->)|(K & _)]; [|discriminate].
              split; cbn [gsize]; [rewrite <- E2, Z1; apply AS|]. left. exists r, n, d. cbn [gchunks gsize app]. rewrite <- E3, <- E2. reflexivity.
           ++ assert (HS : In (mkSeg b z (l1 ++ (c, Fr) :: l2)) (A_of A new)) by (rewrite EA; apply in_mid; left; reflexivity).
              assert (SH : z = MACRO_BLOC /\ forall c k, In (c, k) (l1 ++ l2) -> k <> Fr -> c <= HUGE_LIMIT + 16).
              { assert (SHA : forall sg, sg = mkSeg b z (l1 ++ (c, Fr) :: l2) -> In sg A -> z = MACRO_BLOC /\ forall c k, In (c, k) (l1 ++ l2) -> k <> Fr -> c <= HUGE_LIMIT + 16).
                { intros sg -> HSA. destruct (K3 _ HSA) as (_ & [(p0 & n0 & d0 & J)|(J1 & J2)]).
                  - exfalso. cbn [gchunks gsize] in J. destruct l1 as [|[c2 k2] l1]; [discriminate|].
                    injection J as _ _ J. destruct l1; discriminate.
                  - cbn [gsize gchunks] in *. split; [exact J1|]. intros c2 k2 HI2. apply J2. apply in_mid. right. exact HI2. }
                destruct new as [(gb, z0)|]; cbn [A_of] in HS; [|exact (SHA _ eq_refl HS)].
                destruct HS as [HS|HS]; [|exact (SHA _ eq_refl HS)].
                injection HS as <- E2 E3. destruct (Hz gb z0 eq_refl) as (_ & _ & Z1 & _).
                rewrite (huge_iff g d n R1 D0 R3 Hc) in Eh. unfold ask_size in Z1. rewrite Eh in Z1.
                split; [rewrite <- E2; exact Z1|]. intros c2 k2 HI2 HK.
                assert (HI3 : In (c2, k2) (l1 ++ (c, Fr) :: l2)) by (apply in_mid; right; exact HI2). rewrite <- E3 in HI3.
                destruct HI3 as [HI3|[]]. congruence. }
              destruct SH as (SH1 & SH2).
              split; cbn [gsize gchunks]; [rewrite SH1; reflexivity|]. right. split; [exact SH1|].
              intros c2 k2 HI2 HK. apply in_mid in HI2 as [HI2|HI2].
              ** injection HI2 as -> ->. unfold is_huge in Eh. rewrite Hc in Eh. cbn [andb] in Eh.
                 destruct Hh as (Hh & _).
                 assert (HB := world_chunk _ _ _ _ _ _ _ _ _ _ _ _ W' eq_refl). destruct HB as (B1 & B2 & _).
                 assert (CS : 32 <= calc_chunk_size (padsz d n)).
                 { assert (BS := S63_val). rewrite calc_small by (unfold padsz; destruct (1 <? d); lia). lia. }
                 clear - Hh Eh B2 CS. unfold HUGE_LIMIT in *. unfold align16, w64 in Hh. rewrite W64_val in Hh. lia.
              ** apply in_app_or in HI2. destruct HI2 as [HI2|HI2]; [apply (SH2 c2 k2); [apply in_or_app; left; exact HI2|exact HK]|].
                 apply in_app_or in HI2. destruct HI2 as [HI2|HI2]; [|apply (SH2 c2 k2); [apply in_or_app; right; exact HI2|exact HK]].
                 destruct Hrest as [(-> & _)|(-> & _)]; [contradiction|]. destruct HI2 as [HI2|[]]. congruence.
        -- assert (HS : In sg (A_of A new)) by (rewrite EA; apply in_mid; right; exact HI).
           destruct new as [(gb, z0)|]; cbn [A_of] in HS; [|exact (K3 _ HS)].
           destruct HS as [<-|HS]; [|exact (K3 _ HS)].
           destruct (Hz gb z0 eq_refl) as (_ & _ & Z1 & _).
           destruct (is_huge g (padsz d n)) eqn:Eh.
           ++ destruct Hh as (_ & -> & -> & -> & -> & ->). cbn [app] in HI.
              split; cbn [gsize gchunks]; [rewrite Z1; apply AS|]. right. exfalso.
              assert (D := w_two_segs _ _ _ _ W' [] _ A _ eq_refl HI). cbn [A_of app] in EA. injection EA as E1 E2 E3.
              subst gb z0. unfold disj2 in D. cbn [fst snd gbase gsize] in D. lia.
           ++ rewrite (huge_iff g d n R1 D0 R3 Hc) in Eh. unfold ask_size in Z1. rewrite Eh in Z1.
              split; cbn [gsize gchunks]; [rewrite Z1; reflexivity|]. right. split; [exact Z1|].
              intros c2 k2 [HI2|[]] HK. congruence.
      * intros Hc Hm. destruct (co_src _ _ _ _ _ C Hc) as (K1 & K2 & K3). intros sg HI. unfold A' in HI. apply in_mid in HI as [->|HI].
        { exists (c1, Us r n d). cbn [gchunks snd]. split; [apply in_mid; left; reflexivity|discriminate]. }
        assert (HS : In sg (A_of A new)) by (rewrite EA; apply in_mid; right; exact HI).
        destruct new as [(gb, z0)|]; cbn [A_of] in HS; [|exact (co_busy _ _ _ _ _ C Hc Hm _ HS)].
        destruct HS as [<-|HS]; [|exact (co_busy _ _ _ _ _ C Hc Hm _ HS)].
        (* the new segment is the one allocated from *)
        exfalso. destruct (Hz gb z0 eq_refl) as (_ & _ & Z1 & _). destruct (is_huge g (padsz d n)) eqn:Eh.
        -- destruct Hh as (_ & -> & -> & -> & -> & ->). cbn [app] in HI.
           assert (D := w_two_segs _ _ _ _ W' [] _ A _ eq_refl HI). cbn [A_of app] in EA. injection EA as E1 E2 E3.
           subst gb z0. unfold disj2 in D. cbn [fst snd gbase gsize] in D. lia.
        -- destruct Hh as (_ & Hc1 & Hsm). specialize (Hsm ltac:(discriminate)).
           cbn [A_of] in EA. destruct S1 as [|sg1 S1].
           ++ cbn [app] in EA, HI. injection EA as E1 E2 E3 E4. subst gb z0. unfold A' in W'.
              assert (D := w_two_segs _ _ _ _ W' [] _ S2 _ eq_refl HI).
              unfold disj2 in D. cbn [fst snd gbase gsize] in D.
              assert (HB := world_chunk _ _ _ _ _ _ _ _ _ _ _ _ W' eq_refl). lia.
           ++ injection EA as E1 E2. assert (HA : In (mkSeg b z (l1 ++ (c, Fr) :: l2)) A) by (rewrite E2; apply in_mid; left; reflexivity).
              assert (HF : In (b + 32 + tot l1, c) (frees A)).
              { rewrite E2, frees_mid, frees_from_app. apply in_or_app. right. apply in_or_app. left. apply in_or_app. right. left. reflexivity. }
              destruct (K3 _ HA) as (_ & [(p0 & n0 & d0 & J)|(J1 & J2)]).
              ** cbn [gchunks gsize] in J. destruct l1 as [|[c2 k2] l1']; [discriminate|].
                 injection J as _ _ J. destruct l1'; discriminate.
              ** cbn [gsize] in J1. assert (HB := world_chunk _ _ _ _ _ _ _ _ _ _ _ _ W' eq_refl).
                 destruct HB as (B1 & B2 & B3 & B4 & B5 & B6 & _).
                 assert (c <= MACRO_BLOC).
                 { destruct (w_segok _ _ _ _ W _ HA) as (_ & _ & Q3 & _ & _ & Q6 & _). cbn [gsize gchunks gbase] in *.
                   rewrite tot_app in Q3. cbn [tot] in Q3. apply cks_app in Q6 as (Q6 & Q7). cbn [cks] in Q7. destruct Q7 as (_ & _ & _ & _ & Q7).
                   apply cks_tot in Q6. apply cks_tot in Q7. lia. }
                 specialize (Hsm _ _ HF H). lia.
      * intros Hc. destruct Hnew as [->|(gb & Hc' & _)]; [|congruence]. cbn [A_of s_of] in *.
        rewrite (memonly_base _ _ MO), (memonly_send _ _ MO).
        destruct (co_base _ _ _ _ _ C Hc) as [(K1 & K2)|(A0 & sg & K1 & K2 & K3)].
        { rewrite K1 in EA. destruct S1; discriminate. }
        right. destruct S2 as [|sg2 S2] using rev_ind.
        -- exists S1, (mkSeg b z (l1 ++ (c1, Us r n d) :: rest ++ l2)). split; [reflexivity|].
           rewrite K1 in EA. apply app_inj_tail in EA as (_ & E). rewrite K2, K3, E. auto.
        -- clear IHS2. exists (S1 ++ mkSeg b z (l1 ++ (c1, Us r n d) :: rest ++ l2) :: S2), sg2.
           split; [unfold A'; rewrite <- app_assoc; reflexivity|].
           rewrite K1 in EA. replace (S1 ++ mkSeg b z (l1 ++ (c, Fr) :: l2) :: S2 ++ [sg2]) with ((S1 ++ mkSeg b z (l1 ++ (c, Fr) :: l2) :: S2) ++ [sg2]) in EA by (rewrite <- app_assoc; reflexivity).
           apply app_inj_tail in EA as (_ & E). subst sg2. auto.
    + (* trans *)
      split. { rewrite (memonly_evs _ _ MO). unfold evs. destruct new as [(gb, z0)|]; reflexivity. }
      split. { rewrite ESG. unfold evs. destruct new as [(gb, z0)|]; reflexivity. }
      destruct (memonly_rq _ _ MO) as (Q1 & Q2).
      split; [rewrite Q1; destruct new as [(gb, z0)|]; reflexivity|].
      split; [rewrite Q2; destruct new as [(gb, z0)|]; reflexivity|].
      split.
      * intros q m dd e HI _. split; [apply Permutation_in with (1 := Permutation_sym PP); right; exact HI|].
        intros x Hx. destruct (CH x) as [K|[K|K]]; [exact K| |].
        -- exfalso. exact (used_not_scratch _ _ _ _ _ _ _ _ _ W HI Hx K).
        -- exfalso. destruct new as [(gb, z0)|]; cbn [innew] in K; [|exact K].
           destruct (Hz gb z0 eq_refl) as (_ & _ & _ & (_ & _ & _ & _ & FD) & _).
           destruct (used_in _ _ _ _ _ _ _ _ W HI) as (sg & HS & U1 & U2 & U3 & U4 & U5).
           specialize (FD _ (w_in_rng _ _ _ _ W _ HS)). unfold disj2 in FD. cbn [fst snd] in FD. lia.
      * intros x Hx. destruct (CH x) as [K|[K|K]]; [exact K| |].
        -- exfalso. apply (scratch_rng _ _ _ _ _ W) in K as (b0 & z0 & K1 & K2). exact (Hx b0 z0 (or_introl K1) K2).
        -- exfalso. destruct new as [(gb, z0)|]; cbn [innew] in K; [|exact K].
           apply (Hx gb z0); [right; left; reflexivity|exact K].
    + rewrite BY. destruct new as [(gb, z0)|]; cbn [A_of].
      * destruct (Hz gb z0 eq_refl) as (Hc & _ & -> & _). rewrite Hc. unfold bytes. cbn [map fold_right gsize]. lia.
      * destruct (csrc g); lia.
    + intros K. contradiction.
    + intros _. split; [exact Hn|]. split; [|split].
      * intros m dd e HI. assert (ND := used_nodup _ _ _ _ W').
        apply (Permutation_NoDup (Permutation_map eptr PP)) in ND. cbn [map] in ND. inversion ND as [|? ? N1 _]; subst.
        apply N1. change (In (eptr (r, m, dd, e)) (map eptr (used A))). apply in_map. exact HI.
      * exists (a + c1). split; [apply Permutation_in with (1 := Permutation_sym PP); left; reflexivity|].
        assert (HB := world_chunk _ _ _ _ _ _ _ _ _ _ _ _ W' eq_refl). destruct HB as (B1 & B2 & _ & (K1 & _) & _). fold a in K1.
        assert (P2' : d <= 1 -> r = a + 16) by exact P2. clear P2. unfold fits.
        destruct (is_huge g (padsz d n)) eqn:Eh.
        -- assert (Hc : csrc g = true) by (unfold is_huge in Eh; destruct (csrc g); [reflexivity|discriminate]).
           rewrite (huge_iff g d n R1 D0 R3 Hc) in Eh. rewrite Hc, Eh. cbn [andb].
           destruct Hh as (N1 & -> & -> & -> & -> & ->). destruct new as [(gb, z0)|]; [|contradiction].
           cbn [A_of] in EA. injection EA as E1 E2 E3. destruct (Hz gb z0 eq_refl) as (_ & _ & Z1 & _).
           destruct Hrest as [(_ & ->)|(K & _)]; [|discriminate]. split; [|intros L; specialize (P2' L)]; lia.
        -- destruct Hh as (Hh1 & Hh2 & _).
           replace (csrc g && (1048576 - 16 <? asked d n)) with false.
           2:{ destruct (csrc g) eqn:Hc; [|reflexivity]. rewrite (huge_iff g d n R1 D0 R3 Hc) in Eh. rewrite Eh. reflexivity. }
           eapply (fits_pool d n c1 c _ _ R1 D0 R3 eq_refl B2 Hh1 Hh2); [destruct Hrest as [(_ & K)|(_ & K)]; [left; exact K|right; exact K]|lia|].
           intros L. specialize (P2' L). lia.
      * unfold evs. destruct new as [(gb, z0)|].
        -- right. exists gb. destruct (Hz gb z0 eq_refl) as (Hc & Eg & -> & _). split; [exact Hc|]. split; [exact Eg|]. split; [reflexivity|].
           destruct (is_huge g (padsz d n)) eqn:Eh.
           ++ left. rewrite (huge_iff g d n R1 D0 R3 Hc) in Eh. unfold huge. lia.
           ++ right. apply Hh. discriminate.
        -- left. split; [reflexivity|]. cbn [A_of] in EA. destruct (is_huge g (padsz d n)); [destruct Hh as (Hh & _); contradiction|].
           exists (b + 32 + tot l1), c. split; [|apply Hh].
           rewrite EA, frees_mid, frees_from_app. apply in_or_app. right. apply in_or_app. left. apply in_or_app. right. left. reflexivity.
Qed.
