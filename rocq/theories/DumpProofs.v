(** The dump of a segment, from the invariant of the chain. *)
From Verif Require Import Word Res Mem SizeClassModel SizeClassProofs ChainModel Wp ChainInv ChainZip ChainList ChainFl ChainPrim ChainFind ChainSplit ChainMerge ChainOps ChainAlloc ChainFree ChainSpec ChainCore ChainCoreFree ChainStep ChainRealloc ChainQueue ChainRefill ChainFuel ChainTrace ChainProps ChainWalk DumpModel DumpSpec.
From Coq Require Import ZArith List Bool Lia.
Import ListNotations.
Open Scope Z_scope.

Lemma wp_eq {A} (x : M A) s a t : wp x s (fun a' t' => a' = a /\ t' = t) -> x s = Ok (a, t).
Proof. unfold wp. destruct (x s) as [[a' t']| | |]; try contradiction. intros (-> & ->). reflexivity. Qed.

Lemma bind_run {A B} (x : M A) (f : A -> M B) s a t : x s = Ok (a, t) -> bind x f s = f a t.
Proof. intros H. unfold bind. rewrite H. reflexivity. Qed.

(** The bytes from [b] to [e] are accessible. *)
Definition open_to (s : st) (b e : Z) : Prop := forall x n, b <= x -> 0 <= n -> x + n <= e -> accb (srng s) x n = true.

Section At.
  Variables (s : st) (b e : Z).
  Hypothesis AC : open_to s b e.

  Lemma vsize_at a z p i : b <= a -> a + 16 <= e -> hdr (smem s) a z p i -> vsize (a + 15) s = Ok (z, s).
  Proof.
    intros H1 H2 (H3 & _). unfold vsize, get_size, large_of, SZ_LARGE, loadn. replace (a + 15 + 1 - 16) with a by lia.
    rewrite AC by (cbn; lia). rewrite H3. reflexivity.
  Qed.

  Lemma next_at a z p i : b <= a -> a + 16 <= e -> 0 <= a -> 0 <= z -> a + z < AMAX -> hdr (smem s) a z p i ->
    next_chunk (a + 15) s = Ok (a + z + 15, s).
  Proof.
    intros H1 H2 H0 H3 H4 H. unfold next_chunk. rewrite (bind_run _ _ _ _ _ (vsize_at _ _ _ _ H1 H2 H)). unfold ret.
    rewrite add64_small by (rewrite W64_val; lia). replace (a + 15 + z) with (a + z + 15) by lia. reflexivity.
  Qed.

  Lemma line_at a z p fr : b <= a -> a + 16 <= e -> hdr (smem s) a z p (if fr : bool then 129 else 133) ->
    dump_line (a + 15) s = Ok ((a, a mod 32, z, 1, if fr then 0 else 1), s).
  Proof.
    intros H1 H2 H. assert (HZ := vsize_at _ _ _ _ H1 H2 H). destruct H as (_ & _ & H).
    assert (L : loadn (a + 15) 1 s = Ok (if fr then 129 else 133, s)) by (unfold loadn; rewrite AC by (cbn; lia); rewrite H; reflexivity).
    assert (T : get_type (a + 15) s = Ok (1, s)) by (unfold get_type; rewrite (bind_run _ _ _ _ _ L); destruct fr; reflexivity).
    assert (X : get_state (a + 15) s = Ok (if fr then 0 else 1, s)) by (unfold get_state; rewrite (bind_run _ _ _ _ _ L); destruct fr; reflexivity).
    assert (P : get_ptr (a + 15) s = Ok (a, s)).
    { unfold get_ptr. rewrite (bind_run _ _ _ _ _ T). cbn. unfold ret, large_of, SZ_LARGE. do 2 f_equal. lia. }
    unfold dump_line. rewrite (bind_run _ _ _ _ _ P), (bind_run _ _ _ _ _ P), (bind_run _ _ _ _ _ HZ), (bind_run _ _ _ _ _ T).
    cbn [N_NAMES Z.leb]. change (N_NAMES <=? 1) with false. cbv iota. rewrite (bind_run _ _ _ _ _ X). destruct fr; reflexivity.
  Qed.
End At.

Lemma desc_ge m l : forall a pv w c f, cks m a pv l -> In (w, c, f) (desc a l) -> a <= w.
Proof.
  induction l as [|[c k] l IH]; intros a pv w c' f H HI; [contradiction|]. cbn [cks desc] in *. destruct H as (K1 & _ & _ & _ & K3).
  destruct HI as [E|HI]; [injection E as <- <- <-; lia|]. specialize (IH _ _ _ _ _ K3 HI). lia.
Qed.

Lemma filter_none {A} (f : A -> bool) l : (forall x, In x l -> f x = false) -> filter f l = [].
Proof.
  induction l as [|y l IH]; intros H; [reflexivity|]. cbn [filter]. rewrite (H y (or_introl eq_refl)). apply IH. intros x Hx. apply H. right. exact Hx.
Qed.

Definition before (e : Z) (x : Z * Z * bool) : bool := fst (fst x) <? e.

Lemma hdr_kind m a c pv k : hdr m a c pv (info_of k) -> hdr m a c pv (if isfr (c, k) then 129 else 133).
Proof. destruct k; exact (fun H => H). Qed.

(** From the chunk at [a] to the end mark at [E]. *)
Lemma loop_ends s b E e l : forall a c k pv fuel, open_to s b (E + 16) -> b <= a -> 0 <= a -> E + 16 <= AMAX ->
  cks (smem s) a pv ((c, k) :: l) -> E = a + (c + tot l) -> e <= E -> (length l < fuel)%nat ->
  dump_loop fuel (a + 15) e s = Ok (map line_of (filter (before e) (desc (a + c) l)), s).
Proof.
  induction l as [|[c' k'] l IH]; intros a c k pv fuel AC Hb H0 HE HC HT He HF; (destruct fuel as [|fuel]; [cbn in HF; lia|]);
    cbn [cks] in HC; destruct HC as (C1 & C2 & C3 & _ & C4); cbn [dump_loop].
  - cbn [tot] in HT. rewrite (bind_run _ _ _ _ _ (vsize_at s b (E + 16) AC a _ _ _ Hb ltac:(lia) C3)).
    unfold large_of, SZ_LARGE. rewrite add64_small by (rewrite W64_val; lia).
    destruct (Z.ltb_spec (a + 15 + 1 - 16 + c) e); [lia|]. reflexivity.
  - assert (C4' := C4). cbn [cks] in C4. destruct C4 as (D1 & D2 & D3 & _ & D4). cbn [tot] in HT. assert (T := cks_tot _ _ _ _ D4).
    rewrite (bind_run _ _ _ _ _ (vsize_at s b (E + 16) AC a _ _ _ Hb ltac:(lia) C3)).
    unfold large_of, SZ_LARGE. rewrite add64_small by (rewrite W64_val; lia). replace (a + 15 + 1 - 16 + c) with (a + c) by lia.
    cbn [desc filter before fst]. unfold before at 1. cbn [fst]. destruct (Z.ltb_spec (a + c) e) as [L|L].
    + rewrite (bind_run _ _ _ _ _ (next_at s b (E + 16) AC a c _ _ Hb ltac:(lia) H0 ltac:(lia) ltac:(lia) C3)).
      rewrite (bind_run _ _ _ _ _ (line_at s b (E + 16) AC (a + c) _ _ _ ltac:(lia) ltac:(lia) (hdr_kind _ _ _ _ _ D3))).
      rewrite (bind_run _ _ _ _ _ (IH (a + c) c' k' c fuel AC ltac:(lia) ltac:(lia) HE C4' ltac:(lia) He ltac:(cbn in HF; lia))).
      reflexivity.
    + rewrite (filter_none (before e)); [reflexivity|]. intros [[w d] f] HI. assert (G := desc_ge _ _ _ _ _ _ _ D4 HI). unfold before. cbn [fst]. lia.
Qed.

(** The end mark is its own next chunk. *)
Lemma mark_loops s b E e p : open_to s b (E + 16) -> b <= E -> 0 <= E -> E + 16 <= AMAX -> hdr (smem s) E 0 p 133 -> E < e ->
  forall fuel, dump_loop fuel (E + 15) e s = OutOfFuel.
Proof.
  intros AC Hb H0 HE HM He. induction fuel as [|fuel IH]; [reflexivity|]. cbn [dump_loop].
  rewrite (bind_run _ _ _ _ _ (vsize_at s b (E + 16) AC E _ _ _ Hb ltac:(lia) HM)).
  unfold large_of, SZ_LARGE. rewrite add64_small by (rewrite W64_val; lia). destruct (Z.ltb_spec (E + 15 + 1 - 16 + 0) e); [|lia].
  rewrite (bind_run _ _ _ _ _ (next_at s b (E + 16) AC E 0 _ _ Hb ltac:(lia) H0 ltac:(lia) ltac:(lia) HM)).
  replace (E + 0 + 15) with (E + 15) by lia.
  rewrite (bind_run _ _ _ _ _ (line_at s b (E + 16) AC E _ _ false Hb ltac:(lia) HM)). unfold bind. rewrite IH. reflexivity.
Qed.

Lemma loop_never s b E e q l : forall a c k pv fuel, open_to s b (E + 16) -> b <= a -> 0 <= a -> E + 16 <= AMAX ->
  cks (smem s) a pv ((c, k) :: l) -> E = a + (c + tot l) -> hdr (smem s) E 0 q 133 -> E < e ->
  dump_loop fuel (a + 15) e s = OutOfFuel.
Proof.
  induction l as [|[c' k'] l IH]; intros a c k pv fuel AC Hb H0 HE HC HT HM He; (destruct fuel as [|fuel]; [reflexivity|]);
    cbn [cks] in HC; destruct HC as (C1 & C2 & C3 & _ & C4); cbn [dump_loop].
  - cbn [tot] in HT. rewrite (bind_run _ _ _ _ _ (vsize_at s b (E + 16) AC a _ _ _ Hb ltac:(lia) C3)).
    unfold large_of, SZ_LARGE. rewrite add64_small by (rewrite W64_val; lia).
    destruct (Z.ltb_spec (a + 15 + 1 - 16 + c) e); [|lia].
    rewrite (bind_run _ _ _ _ _ (next_at s b (E + 16) AC a c _ _ Hb ltac:(lia) H0 ltac:(lia) ltac:(lia) C3)).
    replace (a + c + 15) with (E + 15) by lia.
    rewrite (bind_run _ _ _ _ _ (line_at s b (E + 16) AC E _ _ false ltac:(lia) ltac:(lia) HM)). unfold bind.
    rewrite (mark_loops s b E e q AC ltac:(lia) ltac:(lia) HE HM He fuel). reflexivity.
  - assert (C4' := C4). cbn [cks] in C4. destruct C4 as (D1 & D2 & D3 & _ & D4). cbn [tot] in HT. assert (T := cks_tot _ _ _ _ D4).
    rewrite (bind_run _ _ _ _ _ (vsize_at s b (E + 16) AC a _ _ _ Hb ltac:(lia) C3)).
    unfold large_of, SZ_LARGE. rewrite add64_small by (rewrite W64_val; lia). destruct (Z.ltb_spec (a + 15 + 1 - 16 + c) e); [|lia].
    rewrite (bind_run _ _ _ _ _ (next_at s b (E + 16) AC a c _ _ Hb ltac:(lia) H0 ltac:(lia) ltac:(lia) C3)).
    rewrite (bind_run _ _ _ _ _ (line_at s b (E + 16) AC (a + c) _ _ _ ltac:(lia) ltac:(lia) (hdr_kind _ _ _ _ _ D3))). unfold bind.
    rewrite (IH (a + c) c' k' c fuel AC ltac:(lia) ltac:(lia) HE C4' ltac:(lia) HM He). reflexivity.
Qed.

(** ** From the pieces of a segment *)
Lemma desc_split m l : forall a pv w c f, cks m a pv l -> In (w, c, f) (desc a l) ->
  exists l1 k l2, l = l1 ++ (c, k) :: l2 /\ w = a + tot l1 /\ cks m w (lastsz pv l1) ((c, k) :: l2) /\
    (forall x, In x (desc a l1) -> fst (fst x) < w) /\ desc a l = desc a l1 ++ (w, c, f) :: desc (w + c) l2.
Proof.
  induction l as [|[c0 k0] l IH]; intros a pv w c f H HI; [contradiction|]. assert (H' := H). cbn [cks desc] in H, HI.
  destruct H as (K1 & K2 & K3 & K4 & K5). destruct HI as [E|HI].
  - injection E as E1 E2 E3. subst w c f. exists [], k0, l. cbn [tot lastsz desc app]. split; [reflexivity|]. split; [lia|]. split; [exact H'|].
    split; [intros x []|reflexivity].
  - destruct (IH _ _ _ _ _ K5 HI) as (l1 & k & l2 & E1 & E2 & E3 & E4 & E5). exists ((c0, k0) :: l1), k, l2. cbn [tot lastsz desc app].
    assert (G := desc_ge _ _ _ _ _ _ _ K5 HI).
    split; [rewrite E1; reflexivity|]. split; [lia|]. split; [exact E3|]. split; [|rewrite E5; reflexivity].
    intros x [<-|Hx]; [cbn [fst]; lia|]. apply E4. exact Hx.
Qed.

Lemma cks_tot_l m l1 l2 : forall a pv, cks m a pv (l1 ++ l2) -> 0 <= tot l1.
Proof.
  induction l1 as [|[c k] l1 IH]; intros a pv H; cbn [tot app cks] in *; [lia|]. destruct H as (K1 & _ & _ & _ & K). specialize (IH _ _ K). lia.
Qed.

Lemma start_chunk s b e w c p i : open_to s b e -> b <= w -> 0 < w -> w + 16 <= e -> e <= AMAX -> (i = 129 \/ i = 133) -> hdr (smem s) w c p i ->
  get_chunk (add64 w SZ_LARGE) s = Ok (w + 15, s).
Proof.
  intros AC H1 H0 H2 H3 Hi (_ & _ & H). unfold SZ_LARGE. rewrite add64_small by (rewrite W64_val; lia). apply wp_eq.
  apply (wp_get_chunk s (w + 16) i); [lia| | | | |].
  - apply AC; lia.
  - replace (w + 16 - 1) with (w + 15) by lia. exact H.
  - destruct Hi as [-> | ->]; reflexivity.
  - destruct Hi as [-> | ->]; cbn; tauto.
  - split; [lia|reflexivity].
Qed.

Lemma seg_open g s A sg : World g (srng s) (smem s) A -> In sg A -> open_to s (gbase sg) (gbase sg + gsize sg).
Proof.
  intros W H x n H1 H2 H3. rewrite (wd_rng _ _ _ _ W). apply (accb_intro _ (gbase sg) (gsize sg)); [|lia|lia].
  apply in_or_app. left. apply in_map_iff. exists sg. auto.
Qed.

Lemma dump_ok g s o : reach g s o -> forall r w c f e fuel, In r (segs o) -> In (w, c, f) (chunks (smem s) r) ->
  e <= fst r + snd r - 16 -> snd r < Z.of_nat fuel ->
  dump_segment fuel w e s = Ok (map line_of (pieces_in (smem s) r w e), s).
Proof.
  intros R r w c f e fuel Hr HI He HF. destruct (reach_good _ _ _ R) as (A & F & G). assert (W := good_world _ _ _ _ _ G).
  rewrite (gd_segs _ _ _ _ _ G) in Hr. apply in_map_iff in Hr as (sg & <- & HS). assert (AC := seg_open _ _ _ _ W HS).
  destruct (w_segok _ _ _ _ W _ HS) as (H1 & H2 & H3 & H4 & H5 & H6 & H7). unfold pieces_in.
  rewrite (chunks_desc _ _ _ _ W HS) in *. unfold segr in *. cbn [fst snd] in *.
  destruct (desc_split _ _ _ _ _ _ _ H6 HI) as (l1 & k & l2 & E1 & E2 & E3 & E4 & E5).
  rewrite E1, tot_app in H3. cbn [tot] in H3. assert (T1 : 0 <= tot l1) by (rewrite E1 in H6; exact (cks_tot_l _ _ _ _ _ H6)).
  assert (E3' := E3). cbn [cks] in E3'. destruct E3' as (C1 & C2 & C3 & _ & C4). assert (T2 := cks_tot _ _ _ _ C4).
  assert (LL : (length l2 < fuel)%nat) by (assert (L2 := cks_len _ _ _ _ C4); unfold chunk in L2; lia).
  unfold dump_segment.
  rewrite (bind_run _ _ _ _ _ (start_chunk s (gbase sg) (gbase sg + gsize sg) w c (lastsz 0 l1) (info_of k) AC ltac:(lia) ltac:(lia) ltac:(lia) H2 ltac:(destruct k; auto) C3)).
  rewrite (loop_ends s (gbase sg) (gbase sg + gsize sg - 16) e l2 w c k (lastsz 0 l1) fuel); try lia; [|replace (gbase sg + gsize sg - 16 + 16) with (gbase sg + gsize sg) by lia; exact AC|exact E3].
  do 3 f_equal. rewrite E5, filter_app. cbn [filter fst]. rewrite Z.ltb_irrefl. cbn [andb].
  rewrite (filter_none _ (desc (gbase sg + 32) l1)).
  2:{ intros x Hx. specialize (E4 _ Hx). destruct (Z.ltb_spec w (fst (fst x))); [lia|reflexivity]. }
  cbn [app]. apply filter_ext_in. intros [[w' c'] f'] Hx. assert (Q := desc_ge _ _ _ _ _ _ _ C4 Hx). unfold before. cbn [fst].
  destruct (Z.ltb_spec w w'); [reflexivity|lia].
Qed.

Lemma dump_stuck g s o : reach g s o -> forall r w c f e fuel, In r (segs o) -> In (w, c, f) (chunks (smem s) r) ->
  fst r + snd r - 16 < e -> dump_segment fuel w e s = OutOfFuel.
Proof.
  intros R r w c f e fuel Hr HI He. destruct (reach_good _ _ _ R) as (A & F & G). assert (W := good_world _ _ _ _ _ G).
  rewrite (gd_segs _ _ _ _ _ G) in Hr. apply in_map_iff in Hr as (sg & <- & HS). assert (AC := seg_open _ _ _ _ W HS).
  destruct (w_segok _ _ _ _ W _ HS) as (H1 & H2 & H3 & H4 & H5 & H6 & H7).
  rewrite (chunks_desc _ _ _ _ W HS) in *. unfold segr in *. cbn [fst snd] in *.
  destruct (desc_split _ _ _ _ _ _ _ H6 HI) as (l1 & k & l2 & E1 & E2 & E3 & E4 & E5).
  rewrite E1, tot_app in H3. cbn [tot] in H3. assert (T1 : 0 <= tot l1) by (rewrite E1 in H6; exact (cks_tot_l _ _ _ _ _ H6)).
  assert (E3' := E3). cbn [cks] in E3'. destruct E3' as (C1 & C2 & C3 & _ & C4). assert (T2 := cks_tot _ _ _ _ C4).
  unfold dump_segment.
  rewrite (bind_run _ _ _ _ _ (start_chunk s (gbase sg) (gbase sg + gsize sg) w c (lastsz 0 l1) (info_of k) AC ltac:(lia) ltac:(lia) ltac:(lia) H2 ltac:(destruct k; auto) C3)).
  apply (loop_never s (gbase sg) (gbase sg + gsize sg - 16) e (lastsz 0 (gchunks sg)) l2 w c k (lastsz 0 l1) fuel); try lia; [|exact E3|exact H7].
  replace (gbase sg + gsize sg - 16 + 16) with (gbase sg + gsize sg) by lia. exact AC.
Qed.

Lemma dump_nothing g s o : reach g s o -> forall b z e fuel, In (b, z) (segs o) -> e <= b + z -> fuel <> O ->
  dump_segment fuel b e s = Ok ([], s).
Proof.
  intros R b z e fuel Hr He HF. destruct (reach_good _ _ _ R) as (A & F & G). assert (W := good_world _ _ _ _ _ G).
  rewrite (gd_segs _ _ _ _ _ G) in Hr. apply in_map_iff in Hr as (sg & E & HS). unfold segr in E. injection E as <- <-. assert (AC := seg_open _ _ _ _ W HS).
  destruct (w_segok _ _ _ _ W _ HS) as (H1 & H2 & H3 & H4 & H5 & H6 & H7). assert (T := cks_tot _ _ _ _ H6).
  destruct fuel as [|fuel]; [congruence|]. unfold dump_segment.
  rewrite (bind_run _ _ _ _ _ (start_chunk s (gbase sg) (gbase sg + gsize sg) (gbase sg) (gsize sg) 0 133 AC ltac:(lia) ltac:(lia) ltac:(lia) H2 ltac:(auto) H4)). cbn [dump_loop].
  rewrite (bind_run _ _ _ _ _ (vsize_at s (gbase sg) (gbase sg + gsize sg) AC (gbase sg) (gsize sg) 0 133 ltac:(lia) ltac:(lia) H4)).
  unfold large_of, SZ_LARGE. rewrite add64_small by (rewrite W64_val; lia). destruct (Z.ltb_spec (gbase sg + 15 + 1 - 16 + gsize sg) e); [lia|]. reflexivity.
Qed.
