(** Reallocation with mremap (C67). *)
From Verif Require Import Word Res Mem SizeClassModel ChainModel Wp ChainInv ChainZip ChainFl ChainOps ChainAlloc ChainSplit ChainMerge ChainFree ChainCore ChainSpec ChainStep ChainTrace ChainProps ChainCap PosixChain RemapModel.
From Verif Require ChainFit.
From Coq Require Import ZArith List Bool Lia Permutation.
Import ListNotations.
Open Scope Z_scope.

(** ** Actions that do not look at the counter nor at the log of exchanges, and only write where told *)
Definition tag (c : Z) (e : list ev) (s : st) : st := mkSt (smem s) (srng s) (sbase s) (send s) c (rqh s) (rqt s) e.
Definition Loc {A} (P : Z -> Prop) (R : A -> Prop) (f : M A) : Prop := forall s,
  match f s with
  | Ok (a, s') => R a /\ (forall x, smem s' x = smem s x \/ P x) /\ s' = set_mem s (smem s') /\ forall c e, f (tag c e s) = Ok (a, tag c e s')
  | _ => True
  end.
Notation any := (fun _ => True).
Lemma loc_ret {A} P (R : A -> Prop) (a : A) : R a -> Loc P R (ret a).
Proof. intros H s. cbn. split; [exact H|]. split; [auto|]. split; [destruct s; reflexivity|reflexivity]. Qed.
Lemma loc_bind {A B} P (R : A -> Prop) (R' : B -> Prop) (f : M A) (h : A -> M B) : Loc P R f -> (forall a, R a -> Loc P R' (h a)) -> Loc P R' (bind f h).
Proof.
  intros H1 H2 s. unfold bind. specialize (H1 s). destruct (f s) as [[a s1]| | |]; cbn [rbind]; auto. destruct H1 as (Ra & C1 & M1 & T1).
  specialize (H2 a Ra s1). destruct (h a s1) as [[b s2]| | |]; auto. destruct H2 as (Rb & C2 & M2 & T2). split; [exact Rb|].
  split; [intros x; destruct (C2 x) as [E|E]; [rewrite E; apply C1|auto]|]. split; [rewrite M2, M1; reflexivity|].
  intros c e. rewrite T1. cbn [rbind]. apply T2.
Qed.
Lemma loc_load P a n : Loc P any (loadn a n).
Proof. intros s. unfold loadn. destruct (accb (srng s) a (Z.of_nat n)) eqn:E; auto. split; [exact Logic.I|]. split; [auto|]. split; [destruct s; reflexivity|]. intros c e. cbn [srng tag smem]. rewrite E. reflexivity. Qed.
Lemma loc_store (P : Z -> Prop) a n v : (forall x, a <= x < a + Z.of_nat n -> P x) -> Loc P any (storen a n v).
Proof.
  intros H s. unfold storen. destruct (accb (srng s) a (Z.of_nat n)) eqn:E; auto. split; [exact Logic.I|]. split.
  - intros x. cbn [set_mem smem]. destruct (Z_lt_dec x a) as [K|K]; [left; apply sto_other; lia|]. destruct (Z_lt_dec x (a + Z.of_nat n)) as [K'|K']; [right; apply H; lia|left; apply sto_other; lia].
  - split; [reflexivity|]. intros c e. cbn [srng tag smem]. rewrite E. reflexivity.
Qed.
Lemma loc_info (P : Z -> Prop) v (f : Z -> Z) : P v -> Loc P any (bind (loadn v 1) (fun b => storen v 1 (f b))).
Proof. intros H. eapply loc_bind; [apply loc_load|]. intros b _. apply loc_store. intros x Hx. replace x with v by lia. exact H. Qed.
Definition setup_rest (a pv : Z) : M unit :=
  set_addr a a ;;; set_state (a + 15) S_ALLOC ;;; set_type (a + 15) T_LARGE ;;; set_magic (a + 15) MAGIC ;;;
  (if (pv =? 0) || (pv =? a) then set_prevsize a 0 else set_prevsize a (sub64 a pv)).
Lemma loc_rest (P : Z -> Prop) a pv : (forall x, a + 7 <= x < a + 16 -> P x) -> Loc P any (setup_rest a pv).
Proof.
  intros H. unfold setup_rest. eapply loc_bind; [apply loc_store; intros x Hx; apply H; lia|intros _ _].
  eapply loc_bind; [apply (loc_info P (a + 15) (fun b => mk_info (i_type b) S_ALLOC (i_magic b))); apply H; lia|intros _ _].
  eapply loc_bind; [apply (loc_info P (a + 15) (fun b => mk_info T_LARGE (i_state b) (i_magic b))); apply H; lia|intros _ _].
  eapply loc_bind; [apply (loc_info P (a + 15) (fun b => mk_info (i_type b) (i_state b) MAGIC)); apply H; lia|intros _ _].
  destruct ((pv =? 0) || (pv =? a)); apply loc_store; intros x Hx; apply H; lia.
Qed.
Lemma bind_assoc {A B C} (f : M A) (h : A -> M B) (k : B -> M C) s : bind (bind f h) k s = bind f (fun a => bind (h a) k) s.
Proof. unfold bind. destruct (f s) as [[a s1]| | |]; reflexivity. Qed.
Lemma bind_cong {A B} (f : M A) (h k : A -> M B) s : (forall a s1, h a s1 = k a s1) -> bind f h s = bind f k s.
Proof. intros H. unfold bind. destruct (f s) as [[a s1]| | |]; cbn [rbind]; [apply H|reflexivity|reflexivity|reflexivity]. Qed.
Lemma setup_eq a z pv s : setup_chunk a z pv s = bind (set_size a z) (fun _ => bind (setup_rest a pv) (fun _ => ret (vchunk_of_large a))) s.
Proof.
  unfold setup_chunk, setup_rest. apply bind_cong. intros _ s1. rewrite bind_assoc. apply bind_cong. intros _ s2. rewrite bind_assoc. apply bind_cong. intros _ s3.
  rewrite bind_assoc. apply bind_cong. intros _ s4. rewrite bind_assoc. reflexivity.
Qed.
Lemma loc_ext {A} P (R : A -> Prop) (f h : M A) : (forall s, f s = h s) -> Loc P R h -> Loc P R f.
Proof. intros E H s. specialize (H s). rewrite E. destruct (h s) as [[a s']| | |]; auto. destruct H as (H1 & H2 & H3 & H4). repeat (split; [assumption|]). intros c e. rewrite E. apply H4. Qed.
Lemma loc_setup_chunk (P : Z -> Prop) a z pv : (forall x, a <= x < a + 16 -> P x) -> Loc P (fun v => v = vchunk_of_large a) (setup_chunk a z pv).
Proof.
  intros H. apply (loc_ext _ _ _ _ (setup_eq a z pv)). eapply loc_bind; [apply loc_store; intros x Hx; apply H; lia|intros _ _].
  eapply loc_bind; [apply loc_rest; intros x Hx; apply H; lia|intros _ _]. apply loc_ret. reflexivity.
Qed.
Lemma loc_setup_macro (P : Z -> Prop) b z : (forall x, b <= x < b + 24 -> P x) -> Loc P any (setup_macro_bloc b z).
Proof. intros H. unfold setup_macro_bloc. eapply loc_bind; [apply loc_setup_chunk; intros x Hx; apply H; lia|intros v _]. apply loc_store; intros x Hx; apply H; lia. Qed.
(** The size that the set up of a bloc leaves in its header. *)
Lemma setup_size b z s s' : 0 <= z < 2 ^ 56 -> setup_macro_bloc b z s = Ok (tt, s') -> ld (smem s') b 7 = z.
Proof.
  intros Hz H. unfold setup_macro_bloc, bind at 1 in H. rewrite setup_eq in H. unfold bind at 1 in H. unfold set_size, storen at 1 in H.
  destruct (accb (srng s) b (Z.of_nat 7)); [|discriminate]. cbn [rbind] in H. set (s1 := set_mem s (sto (smem s) b 7 z)) in *.
  assert (L : Loc (fun x => b + 7 <= x) any (bind (setup_rest b 0) (fun _ => storen (b + 16) 8 0))).
  { eapply loc_bind; [apply loc_rest; intros x Hx; lia|intros _ _]. apply loc_store. intros x Hx. lia. }
  specialize (L s1). assert (E : bind (setup_rest b 0) (fun _ => storen (b + 16) 8 0) s1 = Ok (tt, s')).
  { rewrite <- H. unfold bind. destruct (setup_rest b 0 s1) as [[[] s2]| | |]; reflexivity. }
  rewrite E in L. destruct L as (_ & C & _).
  rewrite (ld_ext (smem s1) (smem s') 7 b); [unfold s1; cbn [smem set_mem]; rewrite ld_sto_same; apply Z.mod_small; exact Hz|].
  intros x Hx. destruct (C x) as [C'|C']; [exact C'|]. cbn in Hx. lia.
Qed.
(** The rest of the set up: headers of the bloc, of its chunk and the one at the end. *)
Definition newhdr (b z x : Z) : Prop := b <= x < b + 48 \/ b + z - 16 <= x < b + z.
Lemma prepare_loc g b z s : ld (smem s) b 7 = z -> 0 < b -> 64 < z -> b + z <= 2 ^ 56 ->
  match prepare_macro_bloc g b s with
  | Ok (v, s') => v = b + 47 /\ (forall x, smem s' x = smem s x \/ newhdr b z x) /\ s' = set_mem s (smem s') /\
                  forall c e, prepare_macro_bloc g b (tag c e s) = Ok (v, tag c e s')
  | _ => True
  end.
Proof.
  intros Hz Hb Z1 Z2. assert (BW := W64_val). unfold prepare_macro_bloc, bind at 1. unfold get_size, loadn. destruct (accb (srng s) b (Z.of_nat 7)) eqn:E; cbn [rbind]; [|exact Logic.I].
  rewrite Hz. set (f := bind (setup_chunk (b + SZ_MACRO) (sub64 (sub64 z SZ_MACRO) SZ_LARGE) 0) _).
  assert (L : Loc (newhdr b z) (fun v => v = b + 47) f).
  { unfold f, newhdr. eapply loc_bind; [apply loc_setup_chunk; unfold SZ_MACRO; intros x Hx; lia|intros v Ev; cbv beta in Ev]. eapply loc_bind.
    - unfold create_stopper. eapply loc_bind; [apply loc_setup_chunk|intros w Ew].
      + unfold SZ_LARGE. rewrite add64_small by lia. rewrite sub64_small by lia. intros x Hx. lia.
      + cbv beta in Ew. subst w. apply loc_store. unfold large_of, vchunk_of_large, SZ_LARGE. rewrite add64_small by lia. rewrite sub64_small by lia. intros x Hx. lia.
    - intros _ _. eapply loc_bind; [|intros _ _; apply loc_ret; rewrite Ev; unfold vchunk_of_large, SZ_MACRO; lia].
      destruct (creg g); [apply loc_store; intros x Hx; lia|apply loc_ret; exact Logic.I]. }
  specialize (L s). destruct (f s) as [[v s']| | |] eqn:Ef; auto. destruct L as (L1 & L2 & L3 & L4). split; [exact L1|]. split; [exact L2|]. split; [exact L3|].
  intros c e. unfold bind at 1. cbn [srng tag]. rewrite E. cbn [rbind]. change (smem (tag c e s)) with (smem s). rewrite Hz. apply L4.
Qed.

(** ** The bloc of a huge block *)
Lemma huge_bloc g s o A F p n d e : Good g s o A F -> csrc g = true -> In (p, n, d, e) (used A) -> 1048576 < e - p ->
  exists S1 x z S2, A = S1 ++ mkSeg x z [(z - 48, Us p n d)] :: S2 /\ z mod MACRO_BLOC = 0 /\ sbase s = 0 /\ e = x + z - 16 /\ x + 48 <= p.
Proof.
  intros G Hc HU Hu. assert (W := good_world _ _ _ _ _ G). destruct (used_zip _ _ _ _ _ HU) as (S1 & x & z & l1 & c & l2 & S2 & EA & Ee).
  pose proof (gd_core _ _ _ _ _ G) as C. destruct (co_src _ _ _ _ _ C Hc) as (SB & _ & SH).
  assert (HS : In (mkSeg x z (l1 ++ (c, Us p n d) :: l2)) A) by (rewrite EA; apply in_or_app; right; left; reflexivity).
  assert (W' := W). rewrite EA in W'. assert (HC := world_chunk _ _ _ _ _ _ _ _ _ _ _ _ W' eq_refl).
  destruct HC as (H1 & H2 & _ & (K1 & K2 & K3 & K4 & K5 & _) & H7 & H8 & H9 & H10 & _).
  destruct (SH _ HS) as (Z0 & [(p' & n' & d' & E)|(E1 & E2)]); cbn [gsize gchunks] in *.
  - destruct l1 as [|y l1]; cbn [app] in E; [|injection E as _ E; destruct l1; discriminate]. injection E as Ec Ep En Ed El. subst c p' n' d' l2.
    cbn [tot] in *. exists S1, x, z, S2. split; [exact EA|]. split; [exact Z0|]. split; [exact SB|]. lia.
  - assert (K : c <= HUGE_LIMIT + 16) by (apply (E2 c (Us p n d)); [apply in_or_app; right; left; reflexivity|discriminate]). unfold HUGE_LIMIT in K. lia.
Qed.

Section Bloc.
  Variables (g : cfg) (s : st) (o : obs) (A : list seg) (F : Z -> list Z) (S1 S2 : list seg) (x z p n d : Z).
  Hypothesis G : Good g s o A F.
  Hypothesis EA : A = S1 ++ mkSeg x z [(z - 48, Us p n d)] :: S2.
  Hypothesis Hc : csrc g = true.
  Hypothesis Hz : z mod MACRO_BLOC = 0.
  Hypothesis Hu : 1048576 < x + z - 16 - p.
  Let s0 := clear_ev s.

  Lemma bloc_inv : Inv g s0 (S1 ++ mkSeg x z [(z - 48, Us p n d)] :: S2) F.
  Proof. rewrite <- EA. pose proof (co_inv _ _ _ _ _ (gd_core _ _ _ _ _ G)) as IV. destruct IV. constructor; assumption. Qed.
  Lemma bloc_world : World g (srng s0) (smem s0) (S1 ++ mkSeg x z ([] ++ (z - 48, Us p n d) :: []) :: S2).
  Proof. exact (iv_w _ _ _ _ bloc_inv). Qed.
  Lemma bloc_facts : 0 < x /\ x + z <= AMAX /\ In (x, z) (srng s0) /\ ld (smem s0) x 7 = z /\ ld (smem s0) (x + 47) 1 = 133 /\ x + 48 <= p /\ 1048576 < z - 64.
  Proof.
    pose proof bloc_world as W. assert (HC := world_chunk _ _ _ _ _ _ _ _ _ _ _ _ W eq_refl). cbn [tot] in HC.
    destruct HC as (H1 & H2 & (H3 & H4 & H5) & (K1 & K2 & K3 & K4 & K5 & _) & H7 & H8 & H9 & H10 & H11 & _).
    assert (HS : In (mkSeg x z ([] ++ (z - 48, Us p n d) :: [])) (S1 ++ mkSeg x z ([] ++ (z - 48, Us p n d) :: []) :: S2)) by (apply in_or_app; right; left; reflexivity).
    destruct (w_segok _ _ _ _ W _ HS) as (_ & _ & _ & (K & _) & _). cbn [gbase gsize] in K.
    replace (x + 32 + 0 + 15) with (x + 47) in H5 by lia. repeat (split; [first [assumption|lia]|]). lia.
  Qed.
  (** Free of the block. *)
  Lemma bloc_free fuel : chain_free fuel g p s0 = Ok (tt, shrunk s0 x).
  Proof.
    pose proof bloc_facts as (X1 & X2 & X3 & X4 & X5 & X6 & X7). pose proof bloc_world as W. pose proof bloc_inv as IV.
    assert (SB : sbase s0 = 0) by (destruct (co_src _ _ _ _ _ (gd_core _ _ _ _ _ G) Hc) as (SB & _); exact SB).
    assert (K : wp (chain_free fuel g p) s0 (fun _ s' => s' = shrunk s0 x)).
    { unfold chain_free. destruct (Z.eqb_spec p 0); [lia|]. apply wp_bind. eapply live_chunk_unpadded; [exact W|reflexivity|]. cbn [tot].
      replace (x + 32 + 0 + 15) with (x + 47) by lia. destruct (Z.eqb_spec (x + 47) 0); [lia|].
      apply wp_bind. eapply wp_get_state; [eapply accb_intro; [exact X3|lia|lia]|exact X5|].
      apply wp_bind. apply wp_assume; [reflexivity|].
      apply wp_bind. replace (x + 47) with (x + 32 + 15) by lia. eapply wp_vsize; [exact W|cbn [tot]; lia|].
      assert (EH : is_huge g (z - 48) = true).
      { unfold is_huge. rewrite calc_small by (rewrite S63_val; lia). rewrite Hc. cbn [andb]. unfold HUGE_LIMIT. lia. }
      rewrite EH. pose proof (inv_us_lk _ _ _ _ _ _ [] _ _ _ _ _ _ IV) as IV'. cbn [app] in IV'.
      eapply wp_mono; [exact (free_macro_spec g s0 F S1 x z (z - 48) S2 IV' ltac:(lia) Hz SB)|]. intros [] s' (E & _). exact E. }
    unfold wp in K. destruct (chain_free fuel g p s0) as [[[] s']| | |]; try contradiction. rewrite K. reflexivity.
  Qed.
  Lemma wp_eq {T} (f : M T) t a t' : wp f t (fun b u => b = a /\ u = t') -> f t = Ok (a, t').
  Proof. unfold wp. destruct (f t) as [[b u]| | |]; try contradiction. intros (-> & ->). reflexivity. Qed.
  (** The branch is taken. *)
  Lemma remap_enters fuel ans gr h nn : 0 < cfactor g -> 1048576 < nn -> ~ (nn <= z - 64 /\ z - 64 - nn <= cthresh g /\ z - 64 - nn <= (z - 64) / cfactor g) ->
    realloc_remap fuel g true ans gr h p nn s0 = bind (realloc_macro_bloc g ans nn (p - 1)) (fun v => ret (chunk_body v)) s0.
  Proof.
    intros HF Hn HK. pose proof bloc_facts as (X1 & X2 & X3 & X4 & X5 & X6 & X7). pose proof bloc_world as W. assert (BW := W64_val).
    unfold realloc_remap. destruct (Z.eqb_spec p 0); [lia|]. destruct (Z.eqb_spec nn 0); [lia|]. cbn [andb].
    assert (E1 : get_chunk p s0 = Ok (p - 1, s0)) by (apply wp_eq; eapply live_chunk; [exact W|reflexivity|auto]).
    assert (E2 : unpad_vchunk (p - 1) s0 = Ok (x + 32 + 15, s0)) by (apply wp_eq; eapply live_unpad; [exact W|reflexivity|cbn [tot]; split; [lia|reflexivity]]).
    assert (E3 : vsize (x + 32 + 15) s0 = Ok (z - 48, s0)) by (apply wp_eq; eapply wp_vsize; [exact W|cbn [tot]; lia|auto]).
    unfold bind at 1. rewrite E1. cbn [rbind]. destruct (Z.eqb_spec (p - 1) 0); [lia|].
    unfold bind at 1. rewrite E2. cbn [rbind]. unfold bind at 1. rewrite E3. cbn [rbind].
    unfold SZ_LARGE. rewrite (sub64_small (z - 48) 16) by lia. replace (z - 48 - 16) with (z - 64) by lia. cbv zeta.
    assert (E4 : forall T (k : bool -> M T), bind (if (nn <=? z - 64) && (sub64 (z - 64) nn <=? cthresh g)
               then (if cfactor g =? 0 then ub else ret (sub64 (z - 64) nn <=? (z - 64) / cfactor g)) else ret false) k s0 = k false s0).
    { intros T k. destruct (Z.leb_spec nn (z - 64)) as [L|L]; cbn [andb]; [|reflexivity]. rewrite (sub64_small (z - 64) nn) by lia.
      destruct (Z.leb_spec (z - 64 - nn) (cthresh g)) as [L'|L']; [|reflexivity]. destruct (Z.eqb_spec (cfactor g) 0); [lia|].
      destruct (Z.leb_spec (z - 64 - nn) ((z - 64) / cfactor g)) as [L2|L2]; [exfalso; apply HK; auto|reflexivity]. }
    rewrite E4. unfold can_remap. rewrite Hc. cbn [andb]. unfold HUGE_LIMIT.
    destruct (Z.ltb_spec 1048576 (z - 64)); [|lia]. destruct (Z.ltb_spec 1048576 nn); [|lia]. reflexivity.
  Qed.
  (** Up to the answer of the system, for a block that is not padded and a bloc on a page. *)
  Definition rounded (nn : Z) : Z :=
    let s1 := add64 nn (SZ_MACRO + SZ_LARGE) in if negb (s1 mod MACRO_BLOC =? 0) then add64 s1 (MACRO_BLOC - s1 mod MACRO_BLOC) else s1.
  Definition remapped (nb size : Z) : st :=
    mkSt (moved_mem (smem s) x z nb size) ((nb, size) :: filter (fun '(y, _) => negb (y =? x)) (srng s)) (sbase s) (send s) (scnt s) (rqh s) (rqt s) [EGet nb size; EPut x].
  Lemma mremap_run ans size : p = x + 48 -> x mod 4096 = 0 ->
    mremap ans x size s0 = match ans with None => Abort | Some nb => Ok (nb, remapped nb size) end.
  Proof.
    intros Ep Hx. pose proof bloc_facts as (X1 & X2 & X3 & X4 & X5 & X6 & X7). unfold mremap.
    assert (AC : accb (srng s0) x 7 = true) by (eapply accb_intro; [exact X3|lia|lia]). rewrite AC. cbn [negb]. rewrite Hx. cbn [negb Z.eqb].
    rewrite X4. assert (EX : existsb (fun '(y, w) => (y =? x) && (z =? w)) (srng s0) = true).
    { apply existsb_exists. exists (x, z). split; [exact X3|]. lia. }
    rewrite EX. destruct ans as [nb|]; reflexivity.
  Qed.
  Lemma macro_run ans nn : p = x + 48 -> x mod 4096 = 0 ->
    realloc_macro_bloc g ans nn (p - 1) s0 =
    match ans with None => Abort | Some nb => bind (setup_macro_bloc nb (rounded nn)) (fun _ => prepare_macro_bloc g nb) (remapped nb (rounded nn)) end.
  Proof.
    intros Ep Hx. pose proof bloc_facts as (X1 & X2 & X3 & X4 & X5 & X6 & X7). unfold realloc_macro_bloc. fold (rounded nn). cbv zeta.
    assert (E1 : get_ptr (p - 1) s0 = Ok (x + 32, s0)).
    { apply wp_eq. replace (p - 1) with (x + 47) by lia. eapply wp_get_ptr_large; [eapply accb_intro; [exact X3|lia|lia]|exact X5|reflexivity|]. split; [lia|reflexivity]. }
    unfold bind at 1. rewrite E1. cbn [rbind]. unfold SZ_MACRO at 1 2. replace (x + 32 - 32) with x by lia.
    assert (E2 : unregister g x s0 = Ok (tt, s0)).
    { unfold unregister. destruct (creg g); [|reflexivity]. apply wp_eq. apply wp_bind. apply wp_load; [eapply accb_intro; [exact X3|lia|cbn; lia]|]. apply wp_ret. auto. }
    unfold bind at 1. rewrite E2. cbn [rbind]. unfold light_remap. rewrite bind_assoc. unfold bind at 1. rewrite (mremap_run ans (rounded nn) Ep Hx).
    destruct ans as [nb|]; [|reflexivity]. cbn [rbind]. rewrite bind_assoc. apply bind_cong. intros [] s1. reflexivity.
  Qed.
  (** A padded block: the address of the bloc is wrong. *)
  Lemma padded_run ans nn : p <> x + 48 -> (p - 40) mod 4096 <> 0 -> realloc_macro_bloc g ans nn (p - 1) s0 = Abort.
  Proof.
    intros Ep Hx. pose proof bloc_facts as (X1 & X2 & X3 & X4 & X5 & X6 & X7). pose proof bloc_world as W. assert (HC := world_chunk _ _ _ _ _ _ _ _ _ _ _ _ W eq_refl). cbn [tot] in HC.
    destruct HC as (H1 & H2 & (H3 & H4 & H5) & (K1 & K2 & K3 & K4 & K5 & _) & H7 & H8 & H9 & H10 & H11 & _).
    destruct K5 as [K5|(K5 & K6 & K7)]; [lia|]. unfold realloc_macro_bloc. fold (rounded nn). cbv zeta.
    assert (E1 : get_ptr (p - 1) s0 = Ok (p - 8, s0)).
    { apply wp_eq. unfold get_ptr. apply wp_bind. unfold get_type. apply wp_bind. apply wp_load; [eapply accb_intro; [exact H11|lia|cbn; lia]|]. rewrite K7. apply wp_ret.
      change (i_type 134 =? T_LARGE) with false. change (i_type 134 =? T_PADDED) with true. cbn iota. apply wp_ret. unfold padded_of, SZ_PADDED. split; [lia|reflexivity]. }
    unfold bind at 1. rewrite E1. cbn [rbind]. unfold SZ_MACRO at 1 2. replace (p - 8 - 32) with (p - 40) by lia.
    assert (AC : accb (srng s0) (p - 40) 7 = true) by (eapply accb_intro; [exact H11|lia|lia]).
    assert (E2 : unregister g (p - 40) s0 = Ok (tt, s0)).
    { unfold unregister. destruct (creg g); [|reflexivity]. apply wp_eq. apply wp_bind. apply wp_load; [exact AC|]. apply wp_ret. auto. }
    unfold bind at 1. rewrite E2. cbn [rbind]. unfold light_remap. rewrite bind_assoc. unfold bind at 1. unfold mremap. rewrite AC. cbn [negb].
    destruct (Z.eqb_spec ((p - 40) mod 4096) 0); [contradiction|]. reflexivity.
  Qed.
End Bloc.

Lemma rounded_eq nn : 1048576 < nn -> nn < 2 ^ 63 - 64 -> rounded nn = ask_size 0 nn.
Proof.
  intros H1 H2. unfold rounded, ask_size, asked. assert (BW := W64_val). change (SZ_MACRO + SZ_LARGE) with 48. change (1 <? 0) with false. cbv zeta. cbn iota.
  destruct (Z.ltb_spec (1048576 - 16) nn); [|lia]. rewrite (add64_small nn 48) by lia. unfold MACRO_BLOC.
  assert (B := Z.mod_pos_bound (nn + 48) 2097152 ltac:(lia)). assert (D := Z.div_mod (nn + 48) 2097152 ltac:(lia)).
  destruct (Z.eqb_spec ((nn + 48) mod 2097152) 0) as [E|E]; cbn [negb].
  - assert (K : (nn + 48 + 2097151) / 2097152 = (nn + 48) / 2097152) by (symmetry; apply (Z.div_unique _ _ _ 2097151); lia). lia.
  - rewrite add64_small by lia. assert (K : (nn + 48 + 2097151) / 2097152 = (nn + 48) / 2097152 + 1) by (symmetry; apply (Z.div_unique _ _ _ ((nn + 48) mod 2097152 - 1)); lia). lia.
Qed.
Lemma ask_window nn : 1048576 < nn -> ask_size 0 nn mod 2097152 = 0 /\ nn + 48 <= ask_size 0 nn < nn + 48 + 2097152 /\
  ((nn + 47) mod 2097152 < 2097152 - 16 -> nn + 64 <= ask_size 0 nn).
Proof.
  intros H. unfold ask_size, asked. change (1 <? 0) with false. cbn iota. destruct (Z.ltb_spec (1048576 - 16) nn); [|lia].
  split; [apply Z.mod_mul; lia|]. lia.
Qed.

(** Reads do not look at the counter nor at the log either. *)
Lemma loc_get_chunk P p : Loc P any (get_chunk p).
Proof.
  unfold get_chunk. destruct (p =? 0); [apply loc_ret; exact Logic.I|]. apply (loc_bind P any); [unfold get_magic; apply (loc_bind P any); [apply loc_load|intros; apply loc_ret; exact Logic.I]|].
  intros m _. destruct (negb (m =? MAGIC)); [apply loc_ret; exact Logic.I|]. apply (loc_bind P any); [unfold get_type; apply (loc_bind P any); [apply loc_load|intros; apply loc_ret; exact Logic.I]|].
  intros t _. apply (loc_bind P any); [unfold assume; destruct ((t =? T_LARGE) || (t =? T_PADDED)); [apply loc_ret; exact Logic.I|]|intros; apply loc_ret; exact Logic.I]. intros s. exact Logic.I.
Qed.
Lemma loc_usable P p : Loc P any (usable_size p).
Proof.
  unfold usable_size. destruct (p =? 0); [apply loc_ret; exact Logic.I|]. apply (loc_bind P any).
  - unfold get_chunk_unpadded. apply (loc_bind P any); [apply loc_get_chunk|]. intros v _. unfold unpad_vchunk. destruct (v =? 0); [apply loc_ret; exact Logic.I|].
    apply (loc_bind P any); [unfold get_type; apply (loc_bind P any); [apply loc_load|intros; apply loc_ret; exact Logic.I]|]. intros t _. destruct (t =? T_PADDED); [|apply loc_ret; exact Logic.I].
    apply (loc_bind P any); [apply loc_load|]. intros; apply loc_get_chunk.
  - intros v _. destruct (v =? 0); [intros s; exact Logic.I|]. apply (loc_bind P any); [apply loc_load|]. intros; apply loc_ret; exact Logic.I.
Qed.
Lemma usable_tag s p u c e : usable s p u -> usable (tag c e s) p u.
Proof. unfold usable. intros H. pose proof (loc_usable (fun _ => False) p s) as L. rewrite H in L. destruct L as (_ & _ & _ & L). apply L. Qed.

Section Compose.
  Variables (g : cfg) (s : st) (o : obs) (p m d x z u nb n : Z).
  Hypothesis R : reach g s o.
  Hypothesis Hc : csrc g = true.
  Hypothesis Hb : In (mkBlk p m d) (live o).
  Hypothesis Hs : In (x, z) (segs o).
  Hypothesis Hp : p = x + 48.
  Hypothesis Hx : x mod 4096 = 0.
  Hypothesis HU : usable s p u.
  Hypothesis Hu : 1048576 < u.
  Hypothesis Hn : 1048576 < n.
  Hypothesis Hn2 : n < 2 ^ 63 - 64.
  Hypothesis Hgap : (n + 47) mod 2097152 < 2097152 - 16.
  Let o1 := mkObs (rm p (live o)) (pend o) (filter (fun '(y, _) => negb (y =? x)) (segs o)).
  Hypothesis Hnew : new_range g o1 nb (ask_size 0 n).
  Let w := ask_size 0 n.

  Lemma the_bloc : exists A F S1 S2, Good g s o A F /\ A = S1 ++ mkSeg x z [(z - 48, Us p m d)] :: S2 /\ z mod MACRO_BLOC = 0 /\ 1048576 < x + z - 16 - p /\ u = z - 64.
  Proof using R Hc Hb Hs Hp HU Hu.
    clear w Hn Hn2 Hgap Hnew. clear o1 n.
    destruct (reach_good _ _ _ R) as (A & F & G). destruct (block_info _ _ _ _ _ (mkBlk p m d) G) as (u' & _ & _ & U' & HI & _); [apply in_or_app; left; exact Hb|].
    cbn [bp bn bd] in *. pose proof (usable_eq _ _ _ _ U' HU) as E. subst u'.
    destruct (huge_bloc _ _ _ _ _ _ _ _ _ G Hc HI) as (S1 & x' & z' & S2 & EA & Z0 & _ & Ee & Hp'); [lia|].
    assert (W := good_world _ _ _ _ _ G). assert (Hx' : In (x', z') (segs o)) by (rewrite (gd_segs _ _ _ _ _ G), EA; rewrite map_app; apply in_or_app; right; left; reflexivity).
    assert (ZP : 48 <= z).
    { rewrite (gd_segs _ _ _ _ _ G) in Hs. apply in_map_iff in Hs as (sg & E1 & E2). destruct (w_segok _ _ _ _ W _ E2) as (_ & _ & K & _ & _ & K6 & _). assert (T := cks_tot _ _ _ _ K6).
      injection E1 as _ E1. lia. }
    assert (E : (x', z') = (x, z)).
    { destruct (Z.eq_dec x' x) as [Q1|Q1]; [destruct (Z.eq_dec z' z) as [Q2|Q2]; [congruence|]|].
      all: assert (AP : apart (x', z') (x, z)) by (apply (FOP_in apart ((cpool g, POOL_SIZE) :: segs o)); [exact (segs_apart _ _ _ R)|unfold apart; intros; lia|right; assumption|right; assumption|congruence]).
      all: unfold apart in AP; cbn [fst snd] in AP; lia. }
    injection E as -> ->. exists A, F, S1, S2. split; [exact G|]. split; [exact EA|]. split; [exact Z0|]. lia.
  Qed.

  Lemma free_step : step 0 g (OFree p) s = Ok (0, shrunk (clear_ev s) x).
  Proof.
    destruct the_bloc as (A & F & S1 & S2 & G & EA & Z0 & Hz & Eu).
    pose proof (bloc_free g s o A F S1 S2 x z p m d G EA Hc Z0 Hz 0%nat) as E. unfold step, exec, bind. rewrite E. reflexivity.
  Qed.
  Lemma freed : reach g (shrunk (clear_ev s) x) o1.
  Proof.
    assert (V : valid g s o (OFree p)) by (right; exists m, d; exact Hb).
    exact (reach_step g s o 0%nat (OFree p) 0 _ R V free_step).
  Qed.
  Lemma place_ok : valid g (shrunk (clear_ev s) x) o1 (OStore (moved_mem (smem s) x z nb w)).
  Proof.
    intros y ((b & c & K1 & K2) & _). destruct Hnew as (_ & _ & _ & _ & _ & AP). specialize (AP _ K1). unfold apart in AP. cbn [fst snd] in AP.
    unfold moved_mem. fold w in AP. destruct ((nb <=? y) && (y <? nb + w)) eqn:E; [exfalso; lia|reflexivity].
  Qed.
  Lemma placed : reach g (set_mem (clear_ev (shrunk (clear_ev s) x)) (moved_mem (smem s) x z nb w)) o1.
  Proof. apply reach_store; [exact freed|exact place_ok]. Qed.
  (** The other blocks. *)
  Lemma others b v : In b (live o) -> bp b <> p -> usable s (bp b) v ->
    In b (live o1) /\ usable (set_mem (clear_ev (shrunk (clear_ev s) x)) (moved_mem (smem s) x z nb w)) (bp b) v /\
    forall y, bp b <= y < bp b + v -> smem (set_mem (clear_ev (shrunk (clear_ev s) x)) (moved_mem (smem s) x z nb w)) y = smem s y.
  Proof.
    intros Ib Nb U. assert (V : valid g s o (OFree p)) by (right; exists m, d; exact Hb).
    destruct (step_kept g s o (OFree p) 0%nat 0 _ b v R V free_step Ib Nb U) as (I1 & U1 & M1). change (next o (OFree p) 0 (sevs (shrunk (clear_ev s) x))) with o1 in I1.
    destruct (step_kept g _ o1 (OStore (moved_mem (smem s) x z nb w)) 0%nat 0 (set_mem (clear_ev (shrunk (clear_ev s) x)) (moved_mem (smem s) x z nb w)) b v freed place_ok eq_refl I1 ltac:(intros []) U1) as (_ & U2 & _).
    split; [exact I1|]. split; [exact U2|]. intros y Hy. cbn [smem set_mem].
    destruct (blocks_inside _ _ _ freed b) as (v' & sx & sz & U' & _ & _ & K1 & K2 & K3); [apply in_or_app; left; exact I1|]. pose proof (usable_eq _ _ _ _ U' U1) as E. subst v'.
    destruct Hnew as (_ & _ & _ & _ & _ & AP). specialize (AP _ (or_intror K1)). unfold apart in AP. cbn [fst snd] in AP. unfold moved_mem. fold w in AP.
    destruct ((nb <=? y) && (y <? nb + w)) eqn:E; [exfalso; lia|reflexivity].
  Qed.
  Definition after_remap (s' : st) : Prop :=
    reach g (clear_ev s') (mkObs (mkBlk (nb + 48) n 0 :: rm p (live o)) (pend o) ((nb, w) :: filter (fun '(y, _) => negb (y =? x)) (segs o))) /\
    sevs s' = [EGet nb w; EPut x] /\ usable s' (nb + 48) (w - 64) /\
    (forall i, 0 <= i < u -> i < w - 64 -> smem s' (nb + 48 + i) = smem s (p + i)) /\
    (forall y, ~ nb <= y < nb + w -> smem s' y = smem s y) /\
    (forall b v, In b (live o) -> bp b <> p -> usable s (bp b) v -> usable s' (bp b) v /\ forall y, bp b <= y < bp b + v -> smem s' y = smem s y) /\
    sbase s' = sbase s /\ send s' = send s /\ scnt s' = scnt s /\ rqh s' = rqh s /\ rqt s' = rqt s.

  Lemma remap_steps : exists s', bind (setup_macro_bloc nb w) (fun _ => prepare_macro_bloc g nb) (remapped s x z nb w) = Ok (nb + 47, s') /\ after_remap s'.
  Proof using R Hc Hb Hs Hp HU Hu Hn Hn2 Hgap Hnew.
    destruct the_bloc as (A & F & S1 & S2 & G & EA & Z0 & Hz & Eu). pose proof (ask_window n Hn) as (W1 & W2 & W3). specialize (W3 Hgap). fold w in W1, W2, W3.
    pose proof Hnew as (N1 & N2 & _). fold w in N2. change (2 ^ 56) with 72057594037927936 in N2.
    set (s2 := set_mem (clear_ev (shrunk (clear_ev s) x)) (moved_mem (smem s) x z nb w)). pose proof placed as R2. fold s2 in R2.
    set (c := OAlloc 0 n (Some nb)).
    assert (V : valid g s2 o1 c).
    { unfold c. cbn [valid]. unfold request_ok. split; [lia|]. split; [left; reflexivity|]. split; [lia|]. split; [intros _ _; exact Hgap|]. intros _ b E. injection E as <-. exact Hnew. }
    destruct (reach_good _ _ _ R2) as (A2 & F2 & G2). set (f := Z.to_nat (held o1 + extra g c + 1)).
    assert (FO : fuel_ok g o1 c f).
    { unfold fuel_ok, f. assert (0 <= held o1) by (rewrite (held_bytes _ _ (gd_segs _ _ _ _ _ G2)); eapply bytes_pos; exact (good_world _ _ _ _ _ G2)).
      unfold c, extra. rewrite Hc. lia. }
    destruct (wp_run _ _ _ (step_all f g s2 o1 A2 F2 c G2 V FO)) as (r & s3 & E3 & _). fold (step f g c s2) in E3.
    pose proof (reach_step _ _ _ _ _ _ _ R2 V E3) as R3. pose proof E3 as E.
    unfold step, c, exec, alloc_align in E. destruct (Z.eqb_spec n 0); [lia|]. change (1 <? 0) with false in E. cbn iota zeta in E.
    assert (EH : is_huge g n = true). { unfold is_huge. rewrite calc_small by (rewrite S63_val; lia). rewrite Hc. cbn [andb]. unfold HUGE_LIMIT. lia. }
    rewrite EH in E. unfold request_mem in E. rewrite Hc in E. cbn [negb] in E. fold (rounded n) in E. rewrite (rounded_eq n Hn Hn2) in E. fold w in E. cbv zeta in E.
    cbn [source_request] in E. rewrite ?bind_assoc in E. unfold bind at 1 in E. unfold modst at 1 in E. cbn [rbind] in E. rewrite ?bind_assoc in E.
    set (t0 := set_ev (set_rng (clear_ev s2) ((nb, w) :: srng (clear_ev s2))) (EGet nb w)) in E.
    assert (T0 : remapped s x z nb w = tag (scnt s) [EGet nb w; EPut x] t0) by reflexivity.
    unfold bind at 1 in E. destruct (setup_macro_bloc nb w t0) as [[[] t1]| | |] eqn:Q1; try discriminate. cbn [rbind] in E.
    rewrite ?bind_assoc in E. unfold bind at 1 in E. unfold ret at 1 in E. cbn [rbind] in E.
    destruct (Z.eqb_spec nb 0); [lia|]. rewrite ?bind_assoc in E. unfold bind at 1 in E. destruct (prepare_macro_bloc g nb t1) as [[v t2]| | |] eqn:Q2; try discriminate. cbn [rbind] in E.
    rewrite ?bind_assoc in E. unfold bind at 1 in E. unfold modst in E. cbn [rbind] in E. cbv [bind ret rbind] in E. injection E as Er Es.
    pose proof (loc_setup_macro (fun y => nb <= y < nb + 48) nb w ltac:(intros y Hy; cbv beta; lia) t0) as L1. rewrite Q1 in L1. destruct L1 as (_ & C1 & M1 & T1).
    pose proof (setup_size nb w t0 t1 ltac:(lia) Q1) as SZ. pose proof (prepare_loc g nb w t1 SZ N1 ltac:(lia) ltac:(lia)) as L2. rewrite Q2 in L2. destruct L2 as (Ev & C2 & M2 & T2).
    subst v. change (chunk_body (nb + 47)) with (if nb + 47 =? 0 then 0 else nb + 47 + 1) in Er. destruct (Z.eqb_spec (nb + 47) 0); [lia|].
    exists (tag (scnt s) [EGet nb w; EPut x] t2). split.
    { rewrite T0. unfold bind. rewrite T1. cbn [rbind]. apply T2. }
    assert (MM : forall y, smem t2 y = moved_mem (smem s) x z nb w y \/ newhdr nb w y).
    { intros y. destruct (C2 y) as [K|K]; [rewrite K|right; exact K]. destruct (C1 y) as [K'|K']; [left; rewrite K'; reflexivity|right; left; exact K']. }
    assert (E3' : clear_ev (tag (scnt s) [EGet nb w; EPut x] t2) = clear_ev s3).
    { rewrite <- Es. rewrite M2, M1. unfold clear_ev, tag, set_cnt, set_mem. cbn. f_equal. lia. }
    assert (EV : sevs s3 = [EGet nb w]) by (rewrite <- Es, M2, M1; reflexivity).
    assert (O3 : next o1 c r (sevs s3) = mkObs (mkBlk (nb + 48) n 0 :: rm p (live o)) (pend o) ((nb, w) :: filter (fun '(y, _) => negb (y =? x)) (segs o))).
    { rewrite EV. unfold c. cbn [next fold_right apply_ev o1 live pend segs]. destruct (Z.eqb_spec r 0); [lia|]. replace r with (nb + 48) by lia. reflexivity. }
    rewrite O3 in R3. split; [rewrite E3'; apply reach_clear; exact R3|]. split; [reflexivity|]. split.
    { assert (IB : In (mkBlk (nb + 48) n 0) (blocks (mkObs (mkBlk (nb + 48) n 0 :: rm p (live o)) (pend o) ((nb, w) :: filter (fun '(y, _) => negb (y =? x)) (segs o))))) by (left; reflexivity).
      destruct (blocks_inside _ _ _ R3 _ IB) as (u3 & x3 & z3 & U3 & I3 & _). cbn [bp bn bd] in *.
      assert (E48 : r = nb + 48) by lia. rewrite E48 in *.
      destruct (ChainFit.new_block_size g s2 o1 0 n (Some nb) f (nb + 48) s3 u3 R2 V E3 ltac:(lia) U3) as ((_ & _ & B3 & _) & _ & B4). specialize (B3 ltac:(lia) Hc ltac:(lia)). specialize (B4 ltac:(lia) Hc ltac:(lia)).
      assert (U : u3 = w - 64) by lia. subst u3. replace (tag (scnt s) [EGet nb w; EPut x] t2) with (tag (scnt s) [EGet nb w; EPut x] s3) by (rewrite <- Es; reflexivity).
      apply usable_tag. exact U3. }
    split.
    { intros i I1 I2. cbn [smem tag]. destruct (MM (nb + 48 + i)) as [K|K]; [|unfold newhdr in K; lia]. rewrite K. unfold moved_mem.
      destruct (Z.leb_spec nb (nb + 48 + i)); [|lia]. destruct (Z.ltb_spec (nb + 48 + i) (nb + w)); [|lia]. cbn [andb]. destruct (Z.ltb_spec (nb + 48 + i - nb) z); [|lia]. f_equal. lia. }
    split.
    { intros y Hy. cbn [smem tag]. destruct (MM y) as [K|K]; [|unfold newhdr in K; lia]. rewrite K. unfold moved_mem.
      destruct (Z.leb_spec nb y); [|reflexivity]. destruct (Z.ltb_spec y (nb + w)); [lia|reflexivity]. }
    split.
    { intros b v Ib Nb U. destruct (others b v Ib Nb U) as (I2 & U2 & C). fold s2 in U2, C. destruct (step_kept g s2 o1 c f r s3 b v R2 V E3 I2 ltac:(intros []) U2) as (_ & U3 & C3).
      replace (tag (scnt s) [EGet nb w; EPut x] t2) with (tag (scnt s) [EGet nb w; EPut x] s3) by (rewrite <- Es; reflexivity).
      split; [apply usable_tag; exact U3|]. intros y Hy. cbn [smem tag]. rewrite (C3 y Hy ltac:(intros [])). exact (C y Hy). }
    rewrite M2, M1. repeat split; reflexivity.
  Qed.
End Compose.

Lemma remap_moves g s o p m d x z u nb n fuel gr h : reach g s o -> csrc g = true -> In (mkBlk p m d) (live o) -> In (x, z) (segs o) -> p = x + 48 -> x mod 4096 = 0 ->
  usable s p u -> 1048576 < u -> 1048576 < n -> n < 2 ^ 63 - 64 -> (n + 47) mod 2097152 < 2097152 - 16 -> 0 < cfactor g ->
  ~ (n <= u /\ u - n <= cthresh g /\ u - n <= u / cfactor g) ->
  new_range g (mkObs (rm p (live o)) (pend o) (filter (fun '(y, _) => negb (y =? x)) (segs o))) nb (ask_size 0 n) ->
  exists s', realloc_remap fuel g true (Some nb) gr h p n (clear_ev s) = Ok (nb + 48, s') /\ after_remap g s o p x u nb n s'.
Proof.
  intros R Hc Hb Hs Hp Hx HU Hu Hn Hn2 Hg Hf Hk Hnew.
  destruct (the_bloc g s o p m d x z u R Hc Hb Hs Hp HU Hu) as (A & F & S1 & S2 & G & EA & Z0 & Hz & Eu). subst u.
  destruct (remap_steps g s o p m d x z (z - 64) nb n R Hc Hb Hs Hp HU Hu Hn Hn2 Hg Hnew) as (s' & E & P). exists s'. split; [|exact P].
  rewrite (remap_enters g s o A F S1 S2 x z p m d G EA Hc Z0 Hz fuel (Some nb) gr h n Hf Hn Hk).
  unfold bind. rewrite (macro_run g s o A F S1 S2 x z p m d G EA Z0 Hz (Some nb) n Hp Hx). rewrite (rounded_eq n Hn Hn2). rewrite E. cbn [rbind ret].
  unfold chunk_body. destruct Hnew as (N & _). destruct (Z.eqb_spec (nb + 47) 0); [lia|]. replace (nb + 47 + 1) with (nb + 48) by lia. reflexivity.
Qed.
(** The system refuses. *)
Lemma remap_refused g s o p m d x z u n fuel gr h : reach g s o -> csrc g = true -> In (mkBlk p m d) (live o) -> In (x, z) (segs o) -> p = x + 48 -> x mod 4096 = 0 ->
  usable s p u -> 1048576 < u -> 1048576 < n -> 0 < cfactor g -> ~ (n <= u /\ u - n <= cthresh g /\ u - n <= u / cfactor g) ->
  realloc_remap fuel g true None gr h p n (clear_ev s) = Abort.
Proof.
  intros R Hc Hb Hs Hp Hx HU Hu Hn Hf Hk. destruct (the_bloc g s o p m d x z u R Hc Hb Hs Hp HU Hu) as (A & F & S1 & S2 & G & EA & Z0 & Hz & Eu). subst u.
  rewrite (remap_enters g s o A F S1 S2 x z p m d G EA Hc Z0 Hz fuel None gr h n Hf Hn Hk).
  unfold bind. rewrite (macro_run g s o A F S1 S2 x z p m d G EA Z0 Hz None n Hp Hx). reflexivity.
Qed.
(** A padded block; [old]: room between the start of the segment and its end, less the headers. *)
Lemma remap_padded g s o p m d u n fuel ans gr h : reach g s o -> csrc g = true -> In (mkBlk p m d) (live o) -> 1 < d -> d mod 16 = 0 ->
  (forall x z, In (x, z) (segs o) -> p <> x + 48) -> usable s p u -> 1048576 < u -> 1048576 < n -> 0 < cfactor g ->
  (forall x z, In (x, z) (segs o) -> x < p < x + z -> ~ (n <= z - 64 /\ z - 64 - n <= cthresh g /\ z - 64 - n <= (z - 64) / cfactor g)) ->
  realloc_remap fuel g true ans gr h p n (clear_ev s) = Abort.
Proof.
  intros R Hc Hb Hd1 Hd Hs HU Hu Hn Hf Hk.
  destruct (reach_good _ _ _ R) as (A & F & G). destruct (block_info _ _ _ _ _ (mkBlk p m d) G) as (u' & _ & _ & U' & HI & _); [apply in_or_app; left; exact Hb|].
  cbn [bp bn bd] in *. pose proof (usable_eq _ _ _ _ U' HU) as E. subst u'.
  destruct (huge_bloc _ _ _ _ _ _ _ _ _ G Hc HI) as (S1 & x & z & S2 & EA & Z0 & _ & Ee & Hp'); [lia|].
  assert (Hx : In (x, z) (segs o)) by (rewrite (gd_segs _ _ _ _ _ G), EA; rewrite map_app; apply in_or_app; right; left; reflexivity).
  assert (Hz : 1048576 < x + z - 16 - p) by lia. assert (NP : p <> x + 48) by (apply (Hs x z Hx)).
  rewrite (remap_enters g s o A F S1 S2 x z p m d G EA Hc Z0 Hz fuel ans gr h n Hf Hn (Hk x z Hx ltac:(lia))).
  unfold bind. rewrite (padded_run g s o A F S1 S2 x z p m d G EA Z0 Hz ans n NP); [reflexivity|].
  destruct (blocks_aligned _ _ _ R (mkBlk p m d)) as (AL & _); [apply in_or_app; left; exact Hb|]. cbn [bp bd] in AL. specialize (AL Hd1).
  assert (P16 : p mod 16 = 0) by (apply Z.mod_divide in AL, Hd; [|lia|lia]; apply Z.mod_divide; [lia|]; exact (Z.divide_trans _ _ _ Hd AL)). lia.
Qed.
(** Otherwise nothing changes. *)
Lemma bind_ok {A B} (f : M A) (h : A -> M B) s a s1 : f s = Ok (a, s1) -> bind f h s = h a s1.
Proof. unfold bind. intros ->. reflexivity. Qed.
Lemma remap_same g rm ans gr h p n fuel s : rm = false \/ csrc g = false \/ n <= 1048576 \/ p = 0 ->
  realloc_remap fuel g rm ans gr h p n s = chain_realloc fuel g gr h p n s.
Proof.
  intros H. unfold realloc_remap, chain_realloc. destruct (Z.eqb_spec p 0) as [E|E]; cbn [andb]; [destruct (n =? 0); reflexivity|]. destruct (n =? 0); [reflexivity|].
  apply bind_cong. intros v s1. destruct (v =? 0); [reflexivity|]. apply bind_cong. intros u s2. apply bind_cong. intros us s3. cbv zeta. apply bind_cong. intros k s4. destruct k; [reflexivity|].
  assert (K : (HUGE_LIMIT <? sub64 us SZ_LARGE) && (HUGE_LIMIT <? n) && can_remap g rm = false).
  { unfold can_remap, HUGE_LIMIT. destruct H as [->|[->|[H|H]]]; [rewrite !andb_false_r; reflexivity|cbn [andb]; rewrite !andb_false_r; reflexivity| |contradiction]. lia. }
  rewrite K. reflexivity.
Qed.
Lemma remap_same_small g s o p m d u rm ans gr h n fuel : reach g s o -> In (mkBlk p m d) (live o) -> d <= 1 -> usable s p u -> u <= 1048576 ->
  realloc_remap fuel g rm ans gr h p n (clear_ev s) = chain_realloc fuel g gr h p n (clear_ev s).
Proof.
  intros R Hb Hd HU Hu. destruct (reach_good _ _ _ R) as (A & F & G). destruct (block_info _ _ _ _ _ (mkBlk p m d) G) as (u' & _ & _ & U' & HI & _); [apply in_or_app; left; exact Hb|].
  cbn [bp bn bd] in *. pose proof (usable_eq _ _ _ _ U' HU) as E. subst u'. assert (W := good_world _ _ _ _ _ G).
  destruct (used_zip _ _ _ _ _ HI) as (S1 & x & z & l1 & c & l2 & S2 & EA & Ee). subst A. assert (HC := world_chunk _ _ _ _ _ _ _ _ _ _ _ _ W eq_refl).
  destruct HC as (H1 & H2 & (H3 & H4 & H5) & (K1 & K2 & K3 & K4 & K5 & AL & _) & H7 & H8 & H9 & H10 & H11 & _). specialize (AL Hd). assert (BW := W64_val).
  change (World g (srng (clear_ev s)) (smem (clear_ev s)) (S1 ++ mkSeg x z (l1 ++ (c, Us p m d) :: l2) :: S2)) in W. set (s0 := clear_ev s) in *.
  assert (E1 : get_chunk p s0 = Ok (p - 1, s0)) by (apply wp_eq; eapply live_chunk; [exact W|reflexivity|auto]).
  assert (E2 : unpad_vchunk (p - 1) s0 = Ok (x + 32 + tot l1 + 15, s0)) by (apply wp_eq; eapply live_unpad; [exact W|reflexivity|auto]).
  assert (E3 : vsize (x + 32 + tot l1 + 15) s0 = Ok (c, s0)) by (apply wp_eq; eapply wp_vsize; [exact W|reflexivity|auto]).
  unfold realloc_remap, chain_realloc. destruct (Z.eqb_spec p 0) as [E|E]; cbn [andb]; [destruct (n =? 0); reflexivity|]. destruct (n =? 0); [reflexivity|].
  rewrite !(bind_ok _ _ _ _ _ E1). destruct (Z.eqb_spec (p - 1) 0); [lia|]. rewrite !(bind_ok _ _ _ _ _ E2). rewrite !(bind_ok _ _ _ _ _ E3). cbv zeta. apply bind_cong. intros k s4. destruct k; [reflexivity|].
  unfold SZ_LARGE. rewrite (sub64_small c 16) by lia. unfold HUGE_LIMIT. destruct (Z.ltb_spec 1048576 (c - 16)); [lia|]. reflexivity.
Qed.
Lemma remap_kept g s o p m d u rm ans gr h n fuel : reach g s o -> In (mkBlk p m d) (live o) -> d <= 1 -> usable s p u -> 0 < cfactor g ->
  0 < n <= u -> u - n <= cthresh g -> u - n <= u / cfactor g -> realloc_remap fuel g rm ans gr h p n (clear_ev s) = Ok (p, clear_ev s).
Proof.
  intros R Hb Hd HU HF Hn Ht Hr. destruct (reach_good _ _ _ R) as (A & F & G). destruct (block_info _ _ _ _ _ (mkBlk p m d) G) as (u' & _ & _ & U' & HI & _); [apply in_or_app; left; exact Hb|].
  cbn [bp bn bd] in *. pose proof (usable_eq _ _ _ _ U' HU) as E. subst u'. assert (W := good_world _ _ _ _ _ G).
  destruct (used_zip _ _ _ _ _ HI) as (S1 & x & z & l1 & c & l2 & S2 & EA & Ee). subst A. assert (HC := world_chunk _ _ _ _ _ _ _ _ _ _ _ _ W eq_refl).
  destruct HC as (H1 & H2 & (H3 & H4 & H5) & (K1 & K2 & K3 & K4 & K5 & AL & _) & H7 & H8 & H9 & H10 & H11 & _). specialize (AL Hd). assert (BW := W64_val).
  change (World g (srng (clear_ev s)) (smem (clear_ev s)) (S1 ++ mkSeg x z (l1 ++ (c, Us p m d) :: l2) :: S2)) in W. set (s0 := clear_ev s) in *.
  assert (E1 : get_chunk p s0 = Ok (p - 1, s0)) by (apply wp_eq; eapply live_chunk; [exact W|reflexivity|auto]).
  assert (E2 : unpad_vchunk (p - 1) s0 = Ok (x + 32 + tot l1 + 15, s0)) by (apply wp_eq; eapply live_unpad; [exact W|reflexivity|auto]).
  assert (E3 : vsize (x + 32 + tot l1 + 15) s0 = Ok (c, s0)) by (apply wp_eq; eapply wp_vsize; [exact W|reflexivity|auto]).
  unfold realloc_remap. destruct (Z.eqb_spec p 0) as [E|E]; [lia|]. cbn [andb]. destruct (Z.eqb_spec n 0); [lia|].
  rewrite (bind_ok _ _ _ _ _ E1). destruct (Z.eqb_spec (p - 1) 0); [lia|]. rewrite (bind_ok _ _ _ _ _ E2). rewrite (bind_ok _ _ _ _ _ E3). cbv zeta.
  unfold SZ_LARGE. rewrite (sub64_small c 16) by lia. assert (Eu : c - 16 = u) by lia. rewrite Eu. rewrite (sub64_small u n) by lia.
  destruct (Z.leb_spec n u); [|lia]. destruct (Z.leb_spec (u - n) (cthresh g)); [|lia]. cbn [andb]. destruct (Z.eqb_spec (cfactor g) 0); [lia|].
  destruct (Z.leb_spec (u - n) (u / cfactor g)); [|lia]. reflexivity.
Qed.
