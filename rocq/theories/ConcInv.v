(** Invariant of calls in progress, and what one piece of a call does. *)
From Verif Require Import Word Res Mem SizeClassModel ChainModel Wp ChainInv ChainSpec ChainStep ChainRefill ChainEv ChainProps ChainCap ChainSrc ChainPut ChainMore ChainCore ChainFuel ChainTrace ChainWalk
  RegionModel RegionSpec RegionProofs LightModel LightSpec LightProofs PosixModel PosixSpec PosixChain PosixInv PosixSrc PosixLocal PosixMid PosixCall PosixRun PosixEff PosixFun PosixPub PosixNew PosixApi PosixCopy
  PosixRealloc PosixStart PosixStep ConcModel ConcSpec.
From Coq Require Import ZArith List Bool Lia.
Import ListNotations.
Open Scope Z_scope.

(** A block being moved: it is as it was when the call began. *)
Definition rok (y : sys) (O : list obs) (p : Z) (i : nat) (s0 : cst) (O0 : list obs) : Prop :=
  exists m d u, holds y O i (mkBlk p m d) /\ d <= 1 /\ size_of y i p u /\ holds (cy s0) O0 i (mkBlk p m d) /\ size_of (cy s0) i p u /\
    forall x, p <= x < p + u -> ymem y x = ymem (cy s0) x.
Definition fok (y : sys) (O : list obs) (p : Z) : Prop := p = 0 \/ exists i n d, holds y O i (mkBlk p n d).
Definition vok (y : sys) (O : list obs) (t : Z) (c : pop) (p : Z) (v : option (Z * Z)) (s0 : cst) (O0 : list obs) : Prop :=
  match v with
  | None => c = PFree t p
  | Some (r, n) => exists os, c = PRealloc t p n os /\ p <> 0 /\ ((n = 0 /\ r = 0) \/ (0 < n /\ r = 0 /\ ytls y t = Some 0%nat) \/
      (0 < n /\ r <> 0 /\ r <> p /\ exists j d u, holds y O j (mkBlk r n d) /\ size_of y j r u /\ n <= u /\
        forall i m d u x, holds (cy s0) O0 i (mkBlk p m d) -> size_of (cy s0) i p u -> 0 <= x < Z.min u n -> ymem y (r + x) = ymem (cy s0) (p + x)))
  end.
Definition arets (c : pop) : Prop := match c with PRealloc _ p _ _ => p = 0 | PCalloc _ _ _ _ => False | _ => True end.
Definition aok (e : env) (y : sys) (O : list obs) (t : Z) (c : pop) (d : Z -> Z) (n : Z) (a : then_) (s0 : cst) (O0 : list obs) : Prop :=
  0 <= n /\ size_ok (d (one n)) (one n) /\
  match a with
  | ARet => gives c = Some (one n) /\ (forall dd, aligned e c = Some dd -> d (one n) = dd) /\ arets c
  | AZero z => exists a b os, c = PCalloc t a b os /\ z = w64 (a * b) /\ n = z /\ d = ehook e /\ ytls y t <> Some 0%nat
  | ACopy i p m => m = n /\ 0 < n /\ rok y O p i s0 O0 /\ ytls y t <> None /\ exists os, c = PRealloc t p n os
  end.
Definition mine (y : sys) (t : Z) (i : nat) : Prop := is_shared y i = true \/ ytls y t = Some i.
Definition reok (e : env) (n : Z) : Prop := 0 < n /\ 0 < efac e /\ size_ok (ehook e n) n.
Definition jok (e : env) (y : sys) (O : list obs) (t : Z) (c : pop) (k : task) (s0 : cst) (O0 : list obs) : Prop :=
  match k with
  | KAlloc d n a => aok e y O t c d n a s0 O0
  | KAllocPurge l d n a | KAllocDo l d n a => ytls y t = Some l /\ aok e y O t c d n a s0 O0
  | KZero r z n => exists a b os i, c = PCalloc t a b os /\ z = w64 (a * b) /\ n = one z /\ ytls y t = Some i /\ holds y O i (mkBlk r n (ehook e n))
  | KCopy i p r n => 0 < n /\ r <> 0 /\ r <> p /\ rok y O p i s0 O0 /\ (exists j d, holds y O j (mkBlk r n d)) /\ exists os, c = PRealloc t p n os
  | KFree p v => fok y O p /\ vok y O t c p v s0 O0
  | KFreePurge l p v | KFreeFind l p v => ytls y t = Some l /\ fok y O p /\ vok y O t c p v s0 O0
  | KFreeDo i b p v => (exists n d, holds y O i (mkBlk p n d)) /\ (b = true -> mine y t i) /\ vok y O t c p v s0 O0
  | KRealloc p n => reok e n /\ (exists i, rok y O p i s0 O0) /\ exists os, c = PRealloc t p n os
  | KReallocFind l p n => ytls y t = Some l /\ reok e n /\ (exists i, rok y O p i s0 O0) /\ exists os, c = PRealloc t p n os
  | KReallocDo i p n => (exists l, ytls y t = Some l) /\ mine y t i /\ reok e n /\ rok y O p i s0 O0 /\ exists os, c = PRealloc t p n os
  | KExit => c = PExit t
  | KExitPurge i => c = PExit t /\ (i < length (ych y))%nat /\ (chain y i = None \/ is_shared y i = true)
  end.

(** ** A call in progress is not disturbed by what leaves its blocks and its chain alone *)
Record Kept (y : sys) (O : list obs) (y' : sys) (O' : list obs) (t : Z) (P : Z -> Prop) : Prop := {
  kp_blk : forall j b u, holds y O j b -> P (bp b) -> size_of y j (bp b) u ->
    holds y' O' j b /\ size_of y' j (bp b) u /\ forall x, bp b <= x < bp b + u -> ymem y' x = ymem y x;
  kp_tls : ytls y' t = ytls y t;
  kp_len : (length (ych y) <= length (ych y'))%nat;
  kp_dead : forall i, (i < length (ych y))%nat -> chain y i = None -> chain y' i = None;
  kp_sh : forall i, is_shared y i = true -> chain y' i = None \/ is_shared y' i = true }.

Section Kept.
  Variables (e : env) (y : sys) (O : list obs) (y' : sys) (O' : list obs) (t : Z) (P : Z -> Prop).
  Hypothesis S : SInv e y O.
  Hypothesis K : Kept y O y' O' t P.
  Lemma kept_holds j b : holds y O j b -> P (bp b) -> holds y' O' j b.
  Proof. intros H HP. destruct (held_size _ _ _ _ _ S H) as (u & U & _). exact (proj1 (kp_blk _ _ _ _ _ _ K j b u H HP U)). Qed.
  Lemma kept_rok p i s0 O0 : rok y O p i s0 O0 -> P p -> rok y' O' p i s0 O0.
  Proof.
    intros (m & d & u & H1 & H2 & H3 & H4 & H5 & H6) HP. destruct (kp_blk _ _ _ _ _ _ K i (mkBlk p m d) u H1 HP H3) as (K1 & K2 & K3). cbn [bp] in *.
    exists m, d, u. split; [exact K1|]. split; [exact H2|]. split; [exact K2|]. split; [exact H4|]. split; [exact H5|]. intros x Hx. rewrite (K3 x Hx). exact (H6 x Hx).
  Qed.
  Lemma kept_fok p : fok y O p -> (p <> 0 -> P p) -> fok y' O' p.
  Proof. intros [H|(i & n & d & H)] HP; [left; exact H|]. destruct (Z.eq_dec p 0) as [E|N]; [left; exact E|]. right. exists i, n, d. apply kept_holds; [exact H|exact (HP N)]. Qed.
  Lemma kept_vok c p v s0 O0 : vok y O t c p v s0 O0 -> (forall q, In q (vptr v) -> P q) -> vok y' O' t c p v s0 O0.
  Proof.
    destruct v as [[r n]|]; [|intros H _; exact H]. cbn [vok vptr]. intros (os & E & Np & H) HP. exists os. split; [exact E|]. split; [exact Np|].
    rewrite (kp_tls _ _ _ _ _ _ K). destruct H as [H|[H|(H1 & H2 & H3 & j & d & u & H4 & H5 & H6 & H7)]]; [left; exact H|right; left; exact H|]. right. right.
    split; [exact H1|]. split; [exact H2|]. split; [exact H3|]. destruct (kp_blk _ _ _ _ _ _ K j (mkBlk r n d) u H4 (HP r (or_introl eq_refl)) H5) as (K1 & K2 & K3). cbn [bp] in *.
    exists j, d, u. split; [exact K1|]. split; [exact K2|]. split; [exact H6|]. intros i m d' u' x A1 A2 Hx. rewrite K3 by lia. exact (H7 i m d' u' x A1 A2 Hx).
  Qed.
  Lemma kept_aok c d n a s0 O0 : aok e y O t c d n a s0 O0 -> (forall q, In q (aptr a) -> P q) -> aok e y' O' t c d n a s0 O0.
  Proof.
    intros (H1 & H2 & H3) HP. split; [exact H1|]. split; [exact H2|]. destruct a as [|z|i p m]; [exact H3|rewrite (kp_tls _ _ _ _ _ _ K); exact H3|].
    destruct H3 as (A1 & A2 & A3 & A4 & A5). rewrite (kp_tls _ _ _ _ _ _ K). split; [exact A1|]. split; [exact A2|]. split; [apply kept_rok; [exact A3|apply HP; left; reflexivity]|]. split; [exact A4|exact A5].
  Qed.
  Lemma kept_mine i b : mine y t i -> holds y' O' i b -> mine y' t i.
  Proof.
    intros [H|H] ((k & Hk) & _); [left|right; rewrite (kp_tls _ _ _ _ _ _ K); exact H]. destruct (kp_sh _ _ _ _ _ _ K i H) as [E|E]; [congruence|exact E].
  Qed.
  Lemma kept_jok c k s0 O0 : jok e y O t c k s0 O0 -> (forall q, In q (ptrs k) -> P q) -> jok e y' O' t c k s0 O0.
  Proof.
    intros H HP. pose proof (kp_tls _ _ _ _ _ _ K) as ET.
    destruct k as [d n a|l d n a|l d n a|r z n|i p r n|p v|l p v|l p v|i b p v|p n|l p n|i p n| |i]; cbn [jok ptrs] in *; rewrite ?ET.
    - exact (kept_aok _ _ _ _ _ _ H HP).
    - split; [exact (proj1 H)|exact (kept_aok _ _ _ _ _ _ (proj2 H) HP)].
    - split; [exact (proj1 H)|exact (kept_aok _ _ _ _ _ _ (proj2 H) HP)].
    - destruct H as (a & b & os & i & H1 & H2 & H3 & H4 & H5). exists a, b, os, i. split; [exact H1|]. split; [exact H2|]. split; [exact H3|]. split; [exact H4|].
      apply kept_holds; [exact H5|apply HP; left; reflexivity].
    - destruct H as (H1 & H2 & H3 & H4 & (j & d & H5) & H6). split; [exact H1|]. split; [exact H2|]. split; [exact H3|]. split; [apply kept_rok; [exact H4|apply HP; left; reflexivity]|].
      split; [|exact H6]. exists j, d. apply kept_holds; [exact H5|apply HP; right; left; reflexivity].
    - split; [apply kept_fok; [exact (proj1 H)|intros _; apply HP; left; reflexivity]|apply kept_vok; [exact (proj2 H)|intros q Hq; apply HP; right; exact Hq]].
    - destruct H as (H1 & H2 & H3). split; [exact H1|]. split; [apply kept_fok; [exact H2|intros _; apply HP; left; reflexivity]|apply kept_vok; [exact H3|intros q Hq; apply HP; right; exact Hq]].
    - destruct H as (H1 & H2 & H3). split; [exact H1|]. split; [apply kept_fok; [exact H2|intros _; apply HP; left; reflexivity]|apply kept_vok; [exact H3|intros q Hq; apply HP; right; exact Hq]].
    - destruct H as ((n & d & H1) & H2 & H3). assert (H1' : holds y' O' i (mkBlk p n d)) by (apply kept_holds; [exact H1|apply HP; left; reflexivity]).
      split; [exists n, d; exact H1'|]. split; [intros E; exact (kept_mine _ _ (H2 E) H1')|apply kept_vok; [exact H3|intros q Hq; apply HP; right; exact Hq]].
    - destruct H as (H1 & (i & H2) & H3). split; [exact H1|]. split; [exists i; apply kept_rok; [exact H2|apply HP; left; reflexivity]|exact H3].
    - destruct H as (H0 & H1 & (i & H2) & H3). split; [exact H0|]. split; [exact H1|]. split; [exists i; apply kept_rok; [exact H2|apply HP; left; reflexivity]|exact H3].
    - destruct H as (H0 & H1 & H2 & H3 & H4). assert (H3' : rok y' O' p i s0 O0) by (apply kept_rok; [exact H3|apply HP; left; reflexivity]).
      split; [exact H0|]. split; [|split; [exact H2|split; [exact H3'|exact H4]]]. destruct H3' as (m & d & u & H5 & _). exact (kept_mine _ _ H1 H5).
    - exact H.
    - destruct H as (H1 & H2 & H3). split; [exact H1|]. split; [pose proof (kp_len _ _ _ _ _ _ K); lia|]. destruct H3 as [H3|H3]; [left; exact (kp_dead _ _ _ _ _ _ K i H2 H3)|exact (kp_sh _ _ _ _ _ _ K i H3)].
  Qed.
End Kept.

(** The pointers a call has in its hands are blocks. *)
Lemma rok_held y O p i s0 O0 : rok y O p i s0 O0 -> exists i n d, holds y O i (mkBlk p n d).
Proof. intros (m & d & u & H & _). eauto. Qed.
Lemma vok_held y O t c p v s0 O0 q : vok y O t c p v s0 O0 -> In q (vptr v) -> q <> 0 -> exists i n d, holds y O i (mkBlk q n d).
Proof.
  destruct v as [[r n]|]; [|intros _ []]. cbn [vok vptr]. intros (os & _ & _ & H) [<-|[]] Nq. destruct H as [(_ & ->)|[(_ & -> & _)|(_ & _ & _ & j & d & u & H & _)]]; [contradiction|contradiction|eauto].
Qed.
Lemma ptrs_held e y O t c k s0 O0 q : jok e y O t c k s0 O0 -> In q (ptrs k) -> q <> 0 -> exists i n d, holds y O i (mkBlk q n d).
Proof.
  intros H Hq Nq. assert (A : forall d n a, aok e y O t c d n a s0 O0 -> In q (aptr a) -> exists i n d, holds y O i (mkBlk q n d)).
  { intros d n [|z|i p m] (_ & _ & K); cbn [aptr]; [intros []|intros []|]. intros [<-|[]]. exact (rok_held _ _ _ _ _ _ (proj1 (proj2 (proj2 K)))). }
  assert (F : forall p v, fok y O p -> vok y O t c p v s0 O0 -> In q (p :: vptr v) -> exists i n d, holds y O i (mkBlk q n d)).
  { intros p v H1 H2 [<-|H3]; [destruct H1 as [H1|H1]; [contradiction|exact H1]|exact (vok_held _ _ _ _ _ _ _ _ _ H2 H3 Nq)]. }
  destruct k as [d n a|l d n a|l d n a|r z n|i p r n|p v|l p v|l p v|i b p v|p n|l p n|i p n| |i]; cbn [jok ptrs] in *.
  - exact (A d n a H Hq).
  - exact (A d n a (proj2 H) Hq).
  - exact (A d n a (proj2 H) Hq).
  - destruct H as (a & b & os & i & _ & _ & _ & _ & H). destruct Hq as [<-|[]]. eauto.
  - destruct H as (_ & _ & _ & H4 & (j & d & H5) & _). destruct Hq as [<-|[<-|[]]]; [exact (rok_held _ _ _ _ _ _ H4)|eauto].
  - exact (F p v (proj1 H) (proj2 H) Hq).
  - exact (F p v (proj1 (proj2 H)) (proj2 (proj2 H)) Hq).
  - exact (F p v (proj1 (proj2 H)) (proj2 (proj2 H)) Hq).
  - destruct H as ((n & d & H1) & _ & H3). apply (F p v); [right; eauto|exact H3|exact Hq].
  - destruct H as (_ & (i & H) & _). destruct Hq as [<-|[]]. exact (rok_held _ _ _ _ _ _ H).
  - destruct H as (_ & _ & (i & H) & _). destruct Hq as [<-|[]]. exact (rok_held _ _ _ _ _ _ H).
  - destruct H as (_ & _ & _ & H & _). destruct Hq as [<-|[]]. exact (rok_held _ _ _ _ _ _ H).
  - destruct Hq.
  - destruct Hq.
Qed.
