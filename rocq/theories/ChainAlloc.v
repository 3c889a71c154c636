(** Specification of the allocation operation on a state satisfying the invariant. *)
From Verif Require Import Word Res Mem SizeClassModel SizeClassProofs ChainModel Wp ChainInv ChainZip ChainList ChainFl ChainPrim ChainFind ChainSplit ChainMerge ChainOps.
From Coq Require Import ZArith List Bool Lia.
Import ListNotations.
Open Scope Z_scope.

Definition alloc_tail (g : cfg) (c boundary size : Z) : M Z :=
  cs <- get_size c ;;
  assume (32 <=? cs) ;;;
  vr <- split_free_bloc (vchunk_of_large c) size ;;
  let v := fst vr in
  let r := snd vr in
  vs <- vsize v ;;
  assume (calc_chunk_size size <=? vs) ;;;
  (if r =? 0 then ret tt else free_list_insert g (large_of r) AtStart) ;;;
  v <- (if 1 <? boundary then setup_chunk_padded v boundary else ret v) ;;
  ret (chunk_body v).

Lemma wp_vsize g s S1 b z l1 c k l2 S2 a (Q : Z -> st -> Prop) :
  World g (srng s) (smem s) (S1 ++ mkSeg b z (l1 ++ (c, k) :: l2) :: S2) -> a = b + 32 + tot l1 ->
  Q c s -> wp (vsize (a + 15)) s Q.
Proof.
  intros W Ea H. assert (HC := world_chunk _ _ _ _ _ _ _ _ _ _ _ _ W Ea).
  destruct HC as (H1 & H2 & (H3 & H4 & H5) & _ & H7 & H8 & H9 & H10 & H11 & _).
  unfold vsize, large_of, SZ_LARGE, get_size. replace (a + 15 + 1 - 16) with a by lia.
  apply wp_load; [eapply accb_intro; [exact H11|lia|cbn; lia]|]. rewrite H3. exact H.
Qed.

Lemma alloc_tail_spec g s F S1 b z l1 c l2 S2 a bd n size :
  Inv g s (S1 ++ mkSeg b z (l1 ++ (c, Lk) :: l2) :: S2) F -> a = b + 32 + tot l1 ->
  1 <= n -> bdok bd a -> size = padsz bd n -> size < S63 - 64 -> calc_chunk_size size <= c ->
  wp (alloc_tail g a bd size) s (fun p s' => exists c1 rest F',
    Inv g s' (S1 ++ mkSeg b z (l1 ++ (c1, Us p n bd) :: rest ++ l2) :: S2) F' /\ memonly s s' /\
    chg (smem s) (smem s') (scratch g (S1 ++ mkSeg b z (l1 ++ (c, Lk) :: l2) :: S2)) /\
    (rest = [] /\ c1 = c \/ rest = [(c - c1, Fr)] /\ c1 = align16 (calc_chunk_size size)) /\
    c1 < align16 (calc_chunk_size size) + 32 /\
    (1 < bd -> p mod bd = 0) /\ (bd <= 1 -> p = a + 16) /\ p <> 0).
Proof.
  intros IV Ea Hn Hb Esz Hs Hc. assert (W := iv_w _ _ _ _ IV).
  assert (HW := world_chunk _ _ _ _ _ _ _ _ _ _ _ _ W Ea).
  destruct HW as (H1 & H2 & (H3 & H4 & H5) & _ & H7 & H8 & H9 & H10 & H11 & H12 & _).
  assert (BW := W64_val). assert (BS := S63_val).
  assert (Hsz : 1 <= size).
  { rewrite Esz. unfold padsz. destruct Hb as (Hb & _). destruct (1 <? bd); lia. }
  assert (Hcs : calc_chunk_size size = Z.max 32 (size + 16)) by (apply calc_small; lia).
  assert (Hal := align16_small (calc_chunk_size size) ltac:(lia)).
  unfold alloc_tail, get_size.
  apply wp_bind. apply wp_load; [eapply accb_intro; [exact H11|lia|cbn; lia]|]. rewrite H3.
  apply wp_bind. apply wp_assume; [lia|].
  apply wp_bind. unfold vchunk_of_large.
  eapply wp_mono; [eapply (split_spec g s F S1 b z l1 c l2 S2 a size); [exact IV|exact Ea|lia|exact Hc]|].
  intros [v r] s1 (Ev & Hr). cbn [fst snd] in *. subst v.
  destruct Hr as [(Er & Es & Hlt)|(Er & Hle & IV1 & M1 & C1)].
  - subst r s1.
    apply wp_bind. eapply wp_vsize; [exact W|exact Ea|].
    apply wp_bind. apply wp_assume; [lia|]. apply wp_bind. apply wp_ret.
    eapply wp_mono; [eapply (padded_spec g s F S1 b z l1 c l2 S2 a bd n); [exact IV|exact Ea|exact Hn|exact Hb|rewrite <- Esz; lia]|].
    intros p s2 (IV2 & M2 & C2 & P1 & P2). exists c, [], F.
    split; [exact IV2|]. split; [exact M2|]. split; [exact C2|]. split; [left; split; reflexivity|].
    split; [exact Hlt|]. split; [exact P1|]. split; [exact P2|].
    assert (HW := world_chunk _ _ _ _ _ _ _ _ _ _ _ _ (iv_w _ _ _ _ IV2) Ea).
    destruct HW as (_ & _ & _ & (K1 & _) & _). lia.
  - set (sz := align16 (calc_chunk_size size)) in *.
    assert (W1 := iv_w _ _ _ _ IV1).
    apply wp_bind. eapply wp_vsize; [exact W1|exact Ea|].
    apply wp_bind. apply wp_assume; [lia|].
    apply wp_bind. destruct (Z.eqb_spec r 0) as [?|_]; [lia|].
    unfold large_of, SZ_LARGE. replace (r + 1 - 16) with (a + sz) by lia.
    assert (EQ : forall k, l1 ++ (sz, Lk) :: (c - sz, k) :: l2 = (l1 ++ [(sz, Lk)]) ++ (c - sz, k) :: l2).
    { intros k. rewrite <- app_assoc. reflexivity. }
    rewrite EQ in IV1.
    eapply wp_mono; [eapply (insert_spec g s1 F S1 b z (l1 ++ [(sz, Lk)]) (c - sz) l2 S2 (a + sz)); [exact IV1|rewrite tot_app; cbn [tot]; lia]|].
    intros _ s2 (F2 & IV2 & M2 & C2). rewrite <- EQ in IV2, IV1, C2.
    eapply wp_mono; [eapply (padded_spec g s2 F2 S1 b z l1 sz ((c - sz, Fr) :: l2) S2 a bd n); [exact IV2|exact Ea|exact Hn|exact Hb|rewrite <- Esz; lia]|].
    intros p s3 (IV3 & M3 & C3 & P1 & P2). exists sz, [(c - sz, Fr)], F2.
    split; [exact IV3|].
    split; [eapply memonly_trans; [exact M1|eapply memonly_trans; eauto]|].
    split.
    { assert (C12 := chg_scratch_step g S1 b z l1 [(c, Lk)] [(sz, Lk); (c - sz, Lk)] l2 S2 _ _ _ ltac:(repeat constructor) ltac:(repeat constructor) ltac:(cbn [tot]; lia) C1 C2).
      exact (chg_scratch_step g S1 b z l1 [(c, Lk)] [(sz, Lk); (c - sz, Fr)] l2 S2 _ _ _ ltac:(repeat constructor) ltac:(repeat constructor) ltac:(cbn [tot]; lia) C12 C3). }
    split; [right; split; reflexivity|]. split; [lia|]. split; [exact P1|]. split; [exact P2|].
    assert (HW := world_chunk _ _ _ _ _ _ _ _ _ _ _ _ (iv_w _ _ _ _ IV3) Ea).
    destruct HW as (_ & _ & _ & (K1 & _) & _). lia.
Qed.

(** ** Memory from the source *)
Definition grown (s : st) (b z : Z) : st :=
  set_cnt (set_ev (set_rng s ((b, z) :: srng s)) (EGet b z)) (scnt s + 1).
(** bytes asked to the source for [n] bytes *)
Definition reqsize (n : Z) : Z :=
  let s1 := n + 48 in if s1 mod MACRO_BLOC =? 0 then s1 else s1 + (MACRO_BLOC - s1 mod MACRO_BLOC).

Lemma reqsize_ge n : n + 48 <= reqsize n < n + 48 + MACRO_BLOC.
Proof.
  unfold reqsize, MACRO_BLOC. cbv zeta. destruct (Z.eqb_spec ((n + 48) mod 2097152) 0); lia.
Qed.
Lemma reqsize_mod n : reqsize n mod MACRO_BLOC = 0.
Proof.
  unfold reqsize, MACRO_BLOC. cbv zeta. destruct (Z.eqb_spec ((n + 48) mod 2097152) 0) as [E|E]; lia.
Qed.
Lemma reqsize_small n : 0 < n <= HUGE_LIMIT -> reqsize n = MACRO_BLOC.
Proof.
  unfold HUGE_LIMIT. intros H. assert (A := reqsize_ge n). assert (B := reqsize_mod n). unfold MACRO_BLOC in *. lia.
Qed.

Lemma request_spec g s F A grant n : Inv g s A F -> 0 < n < S63 ->
  (forall gb, csrc g = true -> grant = Some gb -> fresh s gb (reqsize n)) ->
  wp (request_mem g grant n) s (fun v s' =>
    (v = 0 /\ s' = s /\ (csrc g = false \/ grant = None)) \/
    (exists gb, csrc g = true /\ grant = Some gb /\ v = gb + 32 + 15 /\ v <> 0 /\
       Inv g s' (mkSeg gb (reqsize n) [(reqsize n - 48, Lk)] :: A) F /\
       memonly (grown s gb (reqsize n)) s' /\ chg (smem s) (smem s') (fun x => gb <= x < gb + reqsize n))).
Proof.
  intros IV Hn Hg. unfold request_mem. destruct (csrc g) eqn:Ec; cbn [negb].
  2:{ apply wp_ret. left. auto. }
  assert (BW := W64_val). assert (BS := S63_val).
  assert (ES : (if negb (add64 n (SZ_MACRO + SZ_LARGE) mod MACRO_BLOC =? 0)
     then add64 (add64 n (SZ_MACRO + SZ_LARGE)) (MACRO_BLOC - add64 n (SZ_MACRO + SZ_LARGE) mod MACRO_BLOC)
     else add64 n (SZ_MACRO + SZ_LARGE)) = reqsize n).
  { change (SZ_MACRO + SZ_LARGE) with 48. rewrite (add64_small n 48) by lia. unfold reqsize. cbv zeta.
    assert (B := Z.mod_pos_bound (n + 48) MACRO_BLOC ltac:(reflexivity)).
    destruct ((n + 48) mod MACRO_BLOC =? 0); cbn [negb]; [reflexivity|].
    apply add64_small. unfold MACRO_BLOC in *. lia. }
  cbv zeta. rewrite ES. clear ES. set (z := reqsize n) in *.
  destruct grant as [gb|]; cbn [source_request].
  2:{ apply wp_bind. apply wp_ret. rewrite Z.eqb_refl. apply wp_ret. left. auto. }
  assert (FR := Hg gb eq_refl eq_refl).
  set (ext := set_ev (set_rng s ((gb, z) :: srng s)) (EGet gb z)).
  assert (NS := newseg_spec g s F A gb z ext IV FR eq_refl eq_refl eq_refl).
  apply wp_bind_inv in NS.
  destruct FR as (F1 & _).
  apply wp_bind. apply wp_bind. apply wp_modst. fold ext. apply wp_bind.
  eapply wp_mono; [exact NS|]. cbv beta. intros _ s1 NS1.
  apply wp_ret. destruct (Z.eqb_spec gb 0); [lia|].
  apply wp_bind. eapply wp_mono; [exact NS1|]. cbv beta. intros v s2 (Ev & IV2 & M2 & C2).
  apply wp_bind. apply wp_modst. apply wp_ret. right. exists gb.
  split; [reflexivity|]. split; [reflexivity|]. split; [exact Ev|]. split; [lia|].
  split.
  { destruct IV2 as [I1 I2 I3]. constructor; assumption. }
  split; [|exact C2].
  red in M2 |- *. rewrite M2. reflexivity.
Qed.

(** ** The public operation *)
Definition A_of (A : list seg) (new : option (Z * Z)) : list seg :=
  match new with None => A | Some (gb, z) => mkSeg gb z [(z - 48, Fr)] :: A end.
Definition s_of (s : st) (new : option (Z * Z)) : st :=
  match new with None => s | Some (gb, z) => grown s gb z end.
Definition innew (new : option (Z * Z)) (x : Z) : Prop :=
  match new with None => False | Some (gb, z) => gb <= x < gb + z end.
Definition request_size (g : cfg) (bd n : Z) : Z :=
  if is_huge g (padsz bd n) then reqsize (padsz bd n) else MACRO_BLOC.

Lemma scratch_new g gb z k A x : scratch g (mkSeg gb z [(z - 48, k)] :: A) x -> scratch g A x \/ gb <= x < gb + z.
Proof.
  intros [H|(sg & [<-|H1] & H2 & H3)].
  - left. left. exact H.
  - right. cbn in H2. exact H2.
  - left. right. exists sg. auto.
Qed.

Lemma frees_len g r m A : World g r m A -> 32 * Z.of_nat (length (frees A)) <= fold_right Z.add 0 (map gsize A).
Proof.
  intros W. assert (H := wd_seg _ _ _ _ W). clear W.
  induction A as [|sg A IH]; cbn [frees flat_map map fold_right]; [cbn; lia|].
  inversion H as [|? ? H1 H2]; subst. specialize (IH H2). fold (frees A). rewrite app_length.
  destruct H1 as (_ & _ & K3 & _ & _ & K6 & _). assert (L := cks_len _ _ _ _ K6).
  assert (K : forall l a, (length (frees_from a l) <= length l)%nat).
  { clear. induction l as [|[c k] l IHl]; intros a; cbn [frees_from length]; [lia|]. rewrite app_length.
    specialize (IHl (a + c)). destruct k; cbn; lia. }
  specialize (K (gchunks sg) (gbase sg + 32)). lia.
Qed.

Definition bytes (A : list seg) : Z := fold_right Z.add 0 (map gsize A).

Lemma bytes_pos g r m A : World g r m A -> 0 <= bytes A.
Proof. intros W. assert (H := frees_len _ _ _ _ W). unfold bytes. lia. Qed.

Lemma alloc_spec fuel g s A F grant bd n :
  Inv g s A F -> 0 <= n -> 0 <= bd ->
  (1 < bd -> (8 mod bd = 0 \/ bd mod 16 = 0) /\ forall sg, In sg A -> gbase sg mod 8 = 0) ->
  n + bd < S63 - 64 ->
  (is_huge g (padsz bd n) = true -> padsz bd n + 64 <= reqsize (padsz bd n)) ->
  (forall gb, csrc g = true -> grant = Some gb -> fresh s gb (request_size g bd n) /\ (1 < bd -> gb mod 8 = 0)) ->
  bytes A + (if csrc g then MACRO_BLOC else 0) < Z.of_nat fuel ->
  wp (alloc_align fuel g grant bd n) s (fun p s' =>
    (p = 0 /\ s' = s /\ (n = 0 \/ (csrc g = true /\ grant = None /\ (is_huge g (padsz bd n) = true \/
         forall a c, In (a, c) (frees A) -> c <= MACRO_BLOC -> c < calc_chunk_size (padsz bd n))) \/
       csrc g = false /\ forall a c, In (a, c) (frees A) -> c <= MACRO_BLOC -> c < calc_chunk_size (padsz bd n))) \/
    (p <> 0 /\ 1 <= n /\ exists new S1 b z l1 c l2 S2 c1 rest F',
       (new = None \/ exists gb, csrc g = true /\ grant = Some gb /\ new = Some (gb, request_size g bd n)) /\
       A_of A new = S1 ++ mkSeg b z (l1 ++ (c, Fr) :: l2) :: S2 /\
       Inv g s' (S1 ++ mkSeg b z (l1 ++ (c1, Us p n bd) :: rest ++ l2) :: S2) F' /\
       memonly (s_of s new) s' /\
       chg (smem s) (smem s') (fun x => scratch g A x \/ innew new x) /\
       (rest = [] /\ c1 = c \/ rest = [(c - c1, Fr)] /\ c1 = align16 (calc_chunk_size (padsz bd n))) /\
       (if is_huge g (padsz bd n) then new <> None /\ S1 = [] /\ l1 = [] /\ l2 = [] /\ S2 = A /\ rest = []
        else c1 < align16 (calc_chunk_size (padsz bd n)) + 32 /\ calc_chunk_size (padsz bd n) <= c /\
          (new <> None -> forall a c, In (a, c) (frees A) -> c <= MACRO_BLOC -> c < calc_chunk_size (padsz bd n))) /\
       (1 < bd -> p mod bd = 0) /\ (bd <= 1 -> p = b + 32 + tot l1 + 16))).
Proof.
  intros IV Hn Hbd Hb Hmax Hgap Hg Hfuel.
  assert (BW := W64_val). assert (BS := S63_val).
  unfold alloc_align. destruct (Z.eqb_spec n 0) as [E0|E0].
  { apply wp_ret. left. auto. }
  assert (Esz : (if 1 <? bd then add64 n bd else n) = padsz bd n).
  { unfold padsz. destruct (1 <? bd); [|reflexivity]. apply add64_small. lia. }
  cbv zeta. rewrite Esz. clear Esz. set (size := padsz bd n) in *.
  assert (Hsize : n <= size <= n + bd) by (unfold size, padsz; destruct (1 <? bd); lia).
  assert (Hcs : calc_chunk_size size = Z.max 32 (size + 16)) by (apply calc_small; lia).
  unfold request_size in *. fold size in Hg |- *.
  destruct (is_huge g size) eqn:Eh.
  - (* huge *)
    assert (Ec : csrc g = true) by (unfold is_huge in Eh; destruct (csrc g); [reflexivity|discriminate]).
    apply wp_bind. eapply wp_mono; [eapply (request_spec g s F A grant size); [exact IV|lia|]|].
    { intros gb K1 K2. apply (Hg gb K1 K2). }
    intros v s1 [(Ev & Es & Hw)|(gb & K1 & K2 & Ev & Hv & IV1 & M1 & C1)].
    + subst v s1. destruct (1 <? bd).
      * apply wp_bind. unfold setup_chunk_padded. cbn [Z.eqb negb]. rewrite Bool.andb_false_r. cbn [andb].
        apply wp_ret. apply wp_ret. left. split; [reflexivity|]. split; [reflexivity|]. right. left. destruct Hw; [congruence|]. split; [exact Ec|]. split; [assumption|left; reflexivity].
      * apply wp_bind. apply wp_ret. apply wp_ret. left. split; [reflexivity|]. split; [reflexivity|]. right. left. destruct Hw; [congruence|]. split; [exact Ec|]. split; [assumption|left; reflexivity].
    + set (z := reqsize size) in *.
      assert (RZ := Hgap eq_refl). fold size z in RZ.
      change (Inv g s1 ([] ++ mkSeg gb z ([] ++ (z - 48, Lk) :: []) :: A) F) in IV1.
      assert (Ea : gb + 32 = gb + 32 + tot []) by (cbn [tot]; lia).
      rewrite Ev.
      eapply wp_mono; [eapply (padded_spec g s1 F [] gb z [] (z - 48) [] A (gb + 32) bd n); [exact IV1|exact Ea|lia| |fold size; lia]|].
      { split; [lia|]. intros Lb. split; [apply Hb; exact Lb|]. destruct (Hg gb K1 K2) as (_ & G2). specialize (G2 Lb). lia. }
      intros p s2 (IV2 & M2 & C2 & P1 & P2).
      assert (HW := world_chunk _ _ _ _ _ _ _ _ _ _ _ _ (iv_w _ _ _ _ IV2) Ea).
      destruct HW as (_ & _ & _ & (K3 & _) & HB & _ & H0 & _).
      right. split; [lia|]. split; [lia|].
      exists (Some (gb, z)), [], gb, z, [], (z - 48), [], A, (z - 48), [], F.
      split; [right; exists gb; auto|]. split; [reflexivity|]. split; [exact IV2|].
      split; [eapply memonly_trans; [exact M1|exact M2]|].
      split. { eapply chg_trans; [eapply chg_weaken; [exact C1|intros x Hx; right; exact Hx]|].
        eapply chg_weaken; [exact C2|]. intros x Hx. cbn [app] in Hx. apply scratch_new in Hx. exact Hx. }
      split; [left; auto|]. split; [split; [discriminate|auto 10]|]. split; [exact P1|]. cbn [tot]. intros Lb. specialize (P2 Lb). lia.
  - (* pool *)
    assert (FL1 := frees_len _ _ _ _ (iv_w _ _ _ _ IV)). fold (bytes A) in FL1.
    assert (FT : forall A0 s0 F0 new r s1,
      Inv g s0 A0 F0 -> A0 = A_of A new -> memonly (s_of s new) s0 ->
      (new = None \/ exists gb, csrc g = true /\ grant = Some gb /\ new = Some (gb, MACRO_BLOC)) ->
      chg (smem s) (smem s0) (fun x => scratch g A x \/ innew new x) ->
      (new <> None -> forall a c, In (a, c) (frees A) -> c <= MACRO_BLOC -> c < calc_chunk_size size) ->
      (r <> 0 /\ exists S1 b z l1 c l2 S2 F',
         A0 = S1 ++ mkSeg b z (l1 ++ (c, Fr) :: l2) :: S2 /\ r = b + 32 + tot l1 /\ calc_chunk_size size <= c /\
         Inv g s1 (S1 ++ mkSeg b z (l1 ++ (c, Lk) :: l2) :: S2) F' /\ memonly s0 s1 /\
         chg (smem s0) (smem s1) (scratch g A0)) ->
      wp (if r =? 0 then ret 0 else alloc_tail g r bd size) s1 (fun p s' =>
        p <> 0 /\ 1 <= n /\ exists new S1 b z l1 c l2 S2 c1 rest F',
       (new = None \/ exists gb, csrc g = true /\ grant = Some gb /\ new = Some (gb, MACRO_BLOC)) /\
       A_of A new = S1 ++ mkSeg b z (l1 ++ (c, Fr) :: l2) :: S2 /\
       Inv g s' (S1 ++ mkSeg b z (l1 ++ (c1, Us p n bd) :: rest ++ l2) :: S2) F' /\
       memonly (s_of s new) s' /\
       chg (smem s) (smem s') (fun x => scratch g A x \/ innew new x) /\
       (rest = [] /\ c1 = c \/ rest = [(c - c1, Fr)] /\ c1 = align16 (calc_chunk_size size)) /\
       (c1 < align16 (calc_chunk_size size) + 32 /\ calc_chunk_size size <= c /\
          (new <> None -> forall a c, In (a, c) (frees A) -> c <= MACRO_BLOC -> c < calc_chunk_size size)) /\
       (1 < bd -> p mod bd = 0) /\ (bd <= 1 -> p = b + 32 + tot l1 + 16))).
    { intros A0 s0 F0 new r s1 I0 E0' M0 Hnew C0 Hsm (Hr & S1 & b & z & l1 & c & l2 & S2 & F1 & EA & Er & Hc & I1 & M1 & C1).
      destruct (Z.eqb_spec r 0); [contradiction|].
      assert (HW := world_chunk _ _ _ _ _ _ _ _ _ _ _ _ (iv_w _ _ _ _ I1) Er).
      destruct HW as (_ & _ & _ & _ & _ & _ & _ & _ & _ & _ & _ & _ & HM & _).
      eapply wp_mono; [eapply (alloc_tail_spec g s1 F1 S1 b z l1 c l2 S2 r bd n size); [exact I1|exact Er|lia| |reflexivity|lia|exact Hc]|].
      { split; [lia|]. intros Lb. split; [apply Hb; exact Lb|].
        assert (b mod 8 = 0); [|lia].
        assert (IN : In (mkSeg b z (l1 ++ (c, Fr) :: l2)) A0) by (rewrite EA; apply in_or_app; right; left; reflexivity).
        rewrite E0' in IN. destruct Hnew as [->|(gb & G1 & G2 & ->)]; cbn [A_of] in IN.
        - exact (proj2 (Hb Lb) _ IN).
        - destruct IN as [IN|IN]; [|exact (proj2 (Hb Lb) _ IN)].
          injection IN as <- _ _. exact (proj2 (Hg gb G1 G2) Lb). }
      intros p s2 (c1 & rest & F2 & I2 & M2 & C2 & R1 & R2 & P1 & P2 & P3).
      split; [exact P3|]. split; [lia|].
      exists new, S1, b, z, l1, c, l2, S2, c1, rest, F2.
      split; [exact Hnew|]. split; [rewrite <- E0'; exact EA|]. split; [exact I2|].
      split; [eapply memonly_trans; [exact M0|eapply memonly_trans; eauto]|].
      split. { eapply chg_trans; [exact C0|].
        assert (C02 : chg (smem s0) (smem s2) (scratch g A0)).
        { rewrite EA in *. eapply (chg_scratch_step g S1 b z l1 [(c, Fr)] [(c, Lk)] l2 S2); [repeat constructor|repeat constructor|reflexivity|exact C1|exact C2]. }
        eapply chg_weaken; [exact C02|]. intros x Hx. rewrite E0' in Hx.
        destruct Hnew as [->|(gb & G1 & G2 & ->)]; cbn [A_of innew] in *; [left; exact Hx|].
        apply scratch_new in Hx. exact Hx. }
      split; [exact R1|]. split; [split; [exact R2|split; [exact Hc|exact Hsm]]|]. split; [exact P1|]. intros Lb. specialize (P2 Lb). lia. }
    apply wp_bind. eapply wp_mono; [eapply (find_chunk_spec g s A F IV size fuel); [lia|destruct (csrc g); unfold MACRO_BLOC in Hfuel; lia]|].
    intros r s1 [(Er & Es & Hall)|Hfound].
    + subst r s1. apply wp_bind. rewrite Z.eqb_refl. apply wp_bind. unfold refill_mem. apply wp_bind.
      eapply wp_mono; [eapply (request_spec g s F A grant (calc_chunk_size size)); [exact IV|lia|]|].
      { intros gb K1 K2. rewrite reqsize_small; [apply (Hg gb K1 K2)|].
        unfold is_huge in Eh. rewrite K1 in Eh. cbn [andb] in Eh. lia. }
      intros v s1 [(Ev & Es & Hw)|(gb & K1 & K2 & Ev & Hv & IV1 & M1 & C1)].
      * subst v s1. rewrite Z.eqb_refl. apply wp_ret. apply wp_ret. rewrite Z.eqb_refl. apply wp_ret.
        left. split; [reflexivity|]. split; [reflexivity|]. right.
        destruct (csrc g) eqn:Ec; [left; destruct Hw; [discriminate|auto 6]|right; auto].
      * destruct (Z.eqb_spec v 0); [contradiction|].
        assert (Eh' : calc_chunk_size size <= HUGE_LIMIT).
        { unfold is_huge in Eh. rewrite K1 in Eh. cbn [andb] in Eh. lia. }
        rewrite (reqsize_small (calc_chunk_size size)) in * by lia.
        change (Inv g s1 ([] ++ mkSeg gb MACRO_BLOC ([] ++ (MACRO_BLOC - 48, Lk) :: []) :: A) F) in IV1.
        apply wp_bind. unfold large_of, SZ_LARGE. replace (v + 1 - 16) with (gb + 32) by lia.
        assert (Ea : gb + 32 = gb + 32 + tot []) by (cbn [tot]; lia).
        eapply wp_mono; [eapply (insert_spec g s1 F [] gb MACRO_BLOC [] (MACRO_BLOC - 48) [] A (gb + 32)); [exact IV1|exact Ea]|].
        intros _ s2 (F2 & IV2 & M2 & C2). apply wp_ret. cbn [app] in IV2, C2.
        assert (FL2 := frees_len _ _ _ _ (iv_w _ _ _ _ IV2)). cbn [map fold_right gsize] in FL2. fold (bytes A) in FL2.
        rewrite K1 in Hfuel.
        eapply wp_mono; [eapply (find_chunk_spec g s2 _ F2 IV2 size fuel); [lia|unfold MACRO_BLOC in *; lia]|].
        assert (CC : chg (smem s) (smem s2) (fun x => scratch g A x \/ innew (Some (gb, MACRO_BLOC)) x)).
        { cbn [innew]. eapply chg_trans; [eapply chg_weaken; [exact C1|intros x Hx; right; exact Hx]|].
          eapply chg_weaken; [exact C2|]. intros x Hx. apply scratch_new in Hx. exact Hx. }
        intros r s3 [(Er & Es & Hall2)|Hfound].
        { exfalso. assert (K := Hall2 (gb + 32) (MACRO_BLOC - 48)).
          assert (IN : In (gb + 32, MACRO_BLOC - 48) (frees (mkSeg gb MACRO_BLOC [(MACRO_BLOC - 48, Fr)] :: A))).
          { cbn [frees flat_map gbase gchunks frees_from app]. left. reflexivity. }
          specialize (K IN). unfold HUGE_LIMIT, MACRO_BLOC in *. lia. }
        eapply wp_mono; [eapply (FT _ s2 F2 (Some (gb, MACRO_BLOC)) r s3); [exact IV2|reflexivity| | |exact CC|intros _; exact Hall|exact Hfound]|].
        -- cbn [s_of]. eapply memonly_trans; [exact M1|exact M2].
        -- right. exists gb. auto.
        -- intros p s' HP. right. exact HP.
    + apply wp_bind. assert (Hr := proj1 Hfound). destruct (Z.eqb_spec r 0); [contradiction|]. apply wp_ret.
      eapply wp_mono; [eapply (FT A s F None r s1); [exact IV|reflexivity|apply memonly_refl|left; reflexivity|apply chg_refl|intros K; contradiction|exact Hfound]|].
      intros p s' HP. right. exact HP.
Qed.
