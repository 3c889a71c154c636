(** Proofs about threads that move to another node (statements in PropMove.v). *)
From Verif Require Import Res NodeModel NodeSpec NodeProofs MoveModel MoveSpec.
From Coq Require Import ZArith List Bool Lia.
Import ListNotations.
Open Scope Z_scope.

Definition node_of (j : nat) : Z := if Nat.eqb j DEF then -1 else Z.of_nat j.
(** [VI]: the sources keep their node and never bind; the segments have a size; a binding is that of the node, which exists. *)
Record VI (g : vcfg) (s : vst) : Prop := mkVI {
  vi_node : forall j, nnode (nsrcs (v_n s) j) = node_of j; vi_str : forall j, nstrict (nsrcs (v_n s) j) = false;
  vi_link : forall c, nlink (v_n s) c = DEF \/ Z.of_nat (nlink (v_n s) c) < v_nodes g;
  vi_size : forall c x, In x (nsegs (v_n s) c) -> 0 < fst x; vi_csize : forall j x, In x (ncache (nsrcs (v_n s) j)) -> 0 < fst x;
  vi_seg : forall c x k, In x (nsegs (v_n s) c) -> snd x = Some k -> k = node_of (nlink (v_n s) c) /\ 0 <= k;
  vi_struct : forall c k, v_str s c = Some k -> k = node_of (nlink (v_n s) c) /\ 0 <= k;
  vi_cache : forall j x k, In x (ncache (nsrcs (v_n s) j)) -> snd x = Some k -> k = node_of j /\ 0 <= k;
  vi_cnt : 0 <= v_cnt s < v_nodes g }.

Lemma node_lt j n : Z.of_nat j < n -> n <= 128 -> node_of j = Z.of_nat j.
Proof. intros H B. unfold node_of, DEF. destruct (Nat.eqb_spec j 128) as [->|_]; [lia|reflexivity]. Qed.
Lemma VI_0 g : vgood g -> VI g v0.
Proof.
  unfold vgood. intros G. constructor; unfold v0; cbn [v_n v_str v_cnt nsrcs nsegs nlink].
  - intros j. unfold node_of. destruct (Nat.eqb j DEF); reflexivity.
  - intros j. destruct (Nat.eqb j DEF); reflexivity.
  - intros c. left. reflexivity.
  - intros c x [].
  - intros j x. destruct (Nat.eqb j DEF); intros [].
  - intros c x k [].
  - intros c k. discriminate.
  - intros j x k. destruct (Nat.eqb j DEF); intros [].
  - lia.
Qed.
(** Where the source comes from. *)
Lemma local_src_ok g force h s j s' : vgood g -> VI g s -> local_src g force h s = Ok (j, s') ->
  (j = DEFAULT_ID \/ 0 <= j < v_nodes g) /\ v_n s' = v_n s /\ v_str s' = v_str s /\ 0 <= v_cnt s' < v_nodes g /\ (v_rr g = true -> j = v_cnt s).
Proof.
  unfold vgood. intros G I. unfold local_src. destruct (if v_numa g && negb force then init_on_node h else Ok DEFAULT_ID) as [r| | |] eqn:E; cbn [rbind]; try discriminate.
  pose proof (vi_cnt _ _ I) as CN. destruct (v_rr g) eqn:RR.
  - unfold robin. destruct (Z.eqb_spec (v_cnt s) (-1)) as [X|_]; [lia|]. destruct (Z.ltb_spec 128 (v_cnt s)) as [X|_]; [lia|].
    destruct (_ || _) eqn:B; [|discriminate]. intros H. injection H as <- <-. cbn [v_n v_str v_cnt]. split; [right; exact CN|]. split; [reflexivity|]. split; [reflexivity|].
    split; [|reflexivity]. apply Z.mod_pos_bound. lia.
  - destruct (_ <? _); [discriminate|]. destruct (_ || _) eqn:B; [|discriminate]. intros H. injection H as <- <-. split; [|split; [reflexivity|split; [reflexivity|split; [exact CN|discriminate]]]].
    apply orb_true_iff in B as [B|B]; [right|left]; lia.
Qed.
Lemma to_nat_src g j : vgood g -> (j = DEFAULT_ID \/ 0 <= j < v_nodes g) -> Z.to_nat j = DEF \/ Z.of_nat (Z.to_nat j) < v_nodes g.
Proof. unfold vgood, DEFAULT_ID, DEF. intros G [->|H]; [left; reflexivity|right; lia]. Qed.
Lemma same_VI g s n str cnt : VI g s -> n = v_n s -> str = v_str s -> 0 <= cnt < v_nodes g -> VI g (mkV n str cnt).
Proof. intros [] -> -> H. constructor; cbn [v_n v_str v_cnt]; assumption. Qed.

Lemma VI_req g s c n cached s' : VI g s -> 0 < n -> vstep g (VReq c n cached) s = Ok s' -> VI g s'.
Proof.
  intros I Hn. cbn [vstep nstep]. set (j := nlink (v_n s) c). destruct (ns_request (nsrcs (v_n s) j) n cached) as [q x] eqn:E. cbn [rbind]. intros H. injection H as <-.
  assert (Q : nnode q = node_of j /\ nstrict q = false /\ (forall y, In y (ncache q) -> In y (ncache (nsrcs (v_n s) j))) /\ 0 < fst x /\ (forall k, snd x = Some k -> k = node_of j /\ 0 <= k)).
  { unfold ns_request in E. destruct (if cached then ns_take n (ncache (nsrcs (v_n s) j)) else None) as [[y l]|] eqn:T.
    - injection E as <- <-. destruct cached; [|discriminate]. destruct (take_in _ _ _ _ T) as (T1 & T2). cbn [nnode nstrict ncache].
      split; [exact (vi_node _ _ I j)|]. split; [exact (vi_str _ _ I j)|]. split; [exact T2|]. split; [exact (vi_csize _ _ I j y T1)|]. intros k. exact (vi_cache _ _ I j y k T1).
    - injection E as <- <-. split; [exact (vi_node _ _ I j)|]. split; [exact (vi_str _ _ I j)|]. split; [intros y Hy; exact Hy|]. split; [exact Hn|].
      cbn [snd]. unfold ns_bind. rewrite (vi_str _ _ I j). cbn [andb]. discriminate. }
  destruct Q as (Q1 & Q2 & Q3 & Q4 & Q5). constructor; cbn [v_n v_str v_cnt nsrcs nsegs nlink].
  - intros i. unfold nupd. destruct (Nat.eqb_spec i j) as [->|_]; [exact Q1|exact (vi_node _ _ I i)].
  - intros i. unfold nupd. destruct (Nat.eqb_spec i j) as [->|_]; [exact Q2|exact (vi_str _ _ I i)].
  - exact (vi_link _ _ I).
  - intros d y. unfold nupd. destruct (Nat.eqb_spec d c) as [->|_]; [|exact (vi_size _ _ I d y)]. intros [<-|Hy]; [exact Q4|exact (vi_size _ _ I c y Hy)].
  - intros i y. unfold nupd. destruct (Nat.eqb_spec i j) as [->|_]; [|exact (vi_csize _ _ I i y)]. intros Hy. exact (vi_csize _ _ I j y (Q3 y Hy)).
  - intros d y k. unfold nupd. destruct (Nat.eqb_spec d c) as [->|_]; [|exact (vi_seg _ _ I d y k)]. intros [<-|Hy]; [exact (Q5 k)|exact (vi_seg _ _ I c y k Hy)].
  - exact (vi_struct _ _ I).
  - intros i y k. unfold nupd. destruct (Nat.eqb_spec i j) as [->|_]; [|exact (vi_cache _ _ I i y k)]. intros Hy. exact (vi_cache _ _ I j y k (Q3 y Hy)).
  - exact (vi_cnt _ _ I).
Qed.
Lemma VI_free g s c i keep s' : VI g s -> vstep g (VFree c i keep) s = Ok s' -> VI g s'.
Proof.
  intros I. cbn [vstep nstep]. set (j := nlink (v_n s) c). destruct (nth_error (nsegs (v_n s) c) i) as [x|] eqn:E; cbn [rbind].
  2:{ intros H. injection H as <-. exact (same_VI g s _ _ _ I eq_refl eq_refl (vi_cnt _ _ I)). }
  intros H. injection H as <-. apply nth_error_In in E.
  assert (Q : nnode (ns_free (nsrcs (v_n s) j) x keep) = node_of j /\ nstrict (ns_free (nsrcs (v_n s) j) x keep) = false /\
    forall y, In y (ncache (ns_free (nsrcs (v_n s) j) x keep)) -> y = x \/ In y (ncache (nsrcs (v_n s) j))).
  { unfold ns_free. destruct keep; cbn [nnode nstrict ncache]; (split; [exact (vi_node _ _ I j)|]); (split; [exact (vi_str _ _ I j)|]); intros y Hy; [destruct Hy as [<-|Hy]; [left; reflexivity|right; exact Hy]|right; exact Hy]. }
  destruct Q as (Q1 & Q2 & Q3). constructor; cbn [v_n v_str v_cnt nsrcs nsegs nlink].
  - intros d. unfold nupd. destruct (Nat.eqb_spec d j) as [->|_]; [exact Q1|exact (vi_node _ _ I d)].
  - intros d. unfold nupd. destruct (Nat.eqb_spec d j) as [->|_]; [exact Q2|exact (vi_str _ _ I d)].
  - exact (vi_link _ _ I).
  - intros d y. unfold nupd. destruct (Nat.eqb_spec d c) as [->|_]; [|exact (vi_size _ _ I d y)]. intros Hy. exact (vi_size _ _ I c y (remove_in _ _ _ Hy)).
  - intros d y. unfold nupd. destruct (Nat.eqb_spec d j) as [->|_]; [|exact (vi_csize _ _ I d y)]. intros Hy. apply Q3 in Hy as [->|Hy]; [exact (vi_size _ _ I c x E)|exact (vi_csize _ _ I j y Hy)].
  - intros d y k. unfold nupd. destruct (Nat.eqb_spec d c) as [->|_]; [|exact (vi_seg _ _ I d y k)]. intros Hy. exact (vi_seg _ _ I c y k (remove_in _ _ _ Hy)).
  - exact (vi_struct _ _ I).
  - intros d y k. unfold nupd. destruct (Nat.eqb_spec d j) as [->|_]; [|exact (vi_cache _ _ I d y k)]. intros Hy. apply Q3 in Hy as [->|Hy]; [exact (vi_seg _ _ I c x k E)|exact (vi_cache _ _ I j y k Hy)].
  - exact (vi_cnt _ _ I).
Qed.
(** One move. *)
Lemma migrate_case nodes on t l r : migrate_all nodes on t l = Ok r -> (forall x, In x l -> 0 < fst x) ->
  (on = false /\ r = l) \/ (on = true /\ (l = [] \/ 0 <= t < nodes) /\ r = map (fun x => (fst x, Some t)) l).
Proof.
  destruct on; [|rewrite migrate_off; intros H _; injection H as <-; left; split; reflexivity]. intros H S. right. split; [reflexivity|].
  destruct l as [|x l]; [injection H as <-; split; [left; reflexivity|reflexivity]|]. assert (T : 0 <= t < nodes).
  { cbn [migrate_all] in H. unfold migrate_mem in H. specialize (S x (or_introl eq_refl)). destruct (Z.eqb_spec (fst x) 0) as [E|_]; [lia|]. cbn [orb negb] in H.
    destruct ((0 <=? t) && (t <? nodes)) eqn:B; [lia|discriminate]. }
  rewrite (migrate_on nodes t (x :: l) T) in H by (intros y Hy; specialize (S y Hy); lia). injection H as <-. split; [right; exact T|reflexivity].
Qed.
Lemma move_cases g s c h s' : vgood g -> VI g s -> vstep g (VMove c h) s = Ok s' -> exists j s1, local_src g false h s = Ok (j, s1) /\
  ((node_of (nlink (v_n s) c) = node_of (Z.to_nat j) /\ s' = s1) \/
   (node_of (nlink (v_n s) c) <> node_of (Z.to_nat j) /\ nlink (v_n s') = nupd (nlink (v_n s)) c (Z.to_nat j) /\ nsrcs (v_n s') = nsrcs (v_n s) /\ v_cnt s' = v_cnt s1 /\
    ((v_mig g = false /\ (forall d, nsegs (v_n s') d = nsegs (v_n s) d) /\ forall d, v_str s' d = v_str s d) \/
     (v_mig g = true /\ 0 <= j < v_nodes g /\ nsegs (v_n s') = nupd (nsegs (v_n s)) c (map (fun x => (fst x, Some j)) (nsegs (v_n s) c)) /\ v_str s' = nupd (v_str s) c (Some j))))).
Proof.
  intros G I. cbn [vstep]. unfold move. destruct (local_src g false h s) as [[j s1]| | |] eqn:E; cbn [rbind]; try discriminate.
  destruct (local_src_ok g false h s j s1 G I E) as (J & N & S & _). intros H. exists j, s1. split; [reflexivity|]. rewrite N in H. rewrite !(vi_node _ _ I) in H.
  destruct (Z.eqb_spec (node_of (nlink (v_n s) c)) (node_of (Z.to_nat j))) as [EQ|NE]; cbn [negb andb] in H.
  { injection H as <-. left. split; [exact EQ|reflexivity]. }
  right. split; [exact NE|]. unfold vgood in G.
  assert (ND : (node_of (Z.to_nat j) =? DEFAULT_ID) = false).
  { apply Z.eqb_neq. unfold DEFAULT_ID. destruct J as [->|J]; [discriminate|]. rewrite (node_lt _ (v_nodes g)) by lia. lia. }
  rewrite ND in H. cbn [negb andb] in H. unfold migrate_chain in H. rewrite N, S in H.
  destruct (migrate_mem _ _ _ _) as [b| | |] eqn:M1; cbn [rbind] in H; try discriminate. cbn [nstep] in H.
  destruct (migrate_all _ _ _ _) as [l| | |] eqn:M2; cbn [rbind] in H; try discriminate. injection H as <-. cbn [v_n v_str v_cnt nlink nsrcs nsegs].
  split; [reflexivity|]. split; [reflexivity|]. split; [reflexivity|]. unfold migrate_mem in M1. cbn [fst] in M1. change (STRUCT =? 0) with false in M1. cbn [orb] in M1.
  destruct (migrate_case _ _ _ _ _ M2 (vi_size _ _ I c)) as [(O & R)|(O & T & R)]; rewrite O in M1; cbn [negb] in M1.
  - left. injection M1 as <-. subst l. split; [exact O|]. cbn [snd]. split; intros d; unfold nupd; destruct (Nat.eqb_spec d c) as [->|_]; reflexivity.
  - right. destruct (_ && _) eqn:B; [|discriminate]. injection M1 as <-. cbn [snd].
    assert (JJ : 0 <= j < v_nodes g). { destruct J as [->|J]; [|exact J]. change (Z.to_nat DEFAULT_ID) with DEF in B. unfold node_of in B. rewrite Nat.eqb_refl in B. discriminate B. }
    assert (NJ : node_of (Z.to_nat j) = j) by (rewrite (node_lt _ (v_nodes g)) by lia; lia). rewrite NJ in R |- *. split; [exact O|]. split; [exact JJ|]. subst l. split; reflexivity.
Qed.
Lemma VI_move g s c h s' : vgood g -> (v_mig g = false -> (forall d x, In x (nsegs (v_n s) d) -> snd x = None) /\ (forall d, v_str s d = None)) ->
  VI g s -> vstep g (VMove c h) s = Ok s' -> VI g s'.
Proof.
  intros G OFF I H. destruct (move_cases g s c h s' G I H) as (j & s1 & E & D). destruct (local_src_ok g false h s j s1 G I E) as (J & N & S & CN & _). pose proof (to_nat_src g j G J) as TJ. unfold vgood in G.
  destruct D as [(_ & ->)|(NE & L & SR & CC & D)].
  { destruct s1 as [n str cnt]. cbn [v_n v_str v_cnt] in *. exact (same_VI g s n str cnt I N S CN). }
  destruct s' as [n str cnt]. cbn [v_n v_str v_cnt] in *. subst cnt.
  assert (LK : forall d, nlink n d = if Nat.eqb d c then Z.to_nat j else nlink (v_n s) d) by (intros d; rewrite L; reflexivity).
  destruct D as [(OF & D1 & D2)|(O & JJ & D1 & D2)].
  - destruct (OFF OF) as (F1 & F2). constructor; cbn [v_n v_str v_cnt].
    + intros d. rewrite SR. exact (vi_node _ _ I d).
    + intros d. rewrite SR. exact (vi_str _ _ I d).
    + intros d. rewrite LK. destruct (Nat.eqb d c); [exact TJ|exact (vi_link _ _ I d)].
    + intros d x. rewrite D1. exact (vi_size _ _ I d x).
    + intros d x. rewrite SR. exact (vi_csize _ _ I d x).
    + intros d x k. rewrite D1. intros Hx Hk. rewrite (F1 d x Hx) in Hk. discriminate.
    + intros d k. rewrite D2, F2. discriminate.
    + intros d x k. rewrite SR. exact (vi_cache _ _ I d x k).
    + exact CN.
  - assert (NJ : node_of (Z.to_nat j) = j) by (rewrite (node_lt _ (v_nodes g)) by lia; lia). constructor; cbn [v_n v_str v_cnt].
    + intros d. rewrite SR. exact (vi_node _ _ I d).
    + intros d. rewrite SR. exact (vi_str _ _ I d).
    + intros d. rewrite LK. destruct (Nat.eqb d c); [exact TJ|exact (vi_link _ _ I d)].
    + intros d x. rewrite D1. unfold nupd. destruct (Nat.eqb_spec d c) as [->|_]; [|exact (vi_size _ _ I d x)]. intros Hx. apply in_map_iff in Hx as (y & <- & Hy). exact (vi_size _ _ I c y Hy).
    + intros d x. rewrite SR. exact (vi_csize _ _ I d x).
    + intros d x k. rewrite D1, LK. unfold nupd. destruct (Nat.eqb_spec d c) as [->|_]; [|exact (vi_seg _ _ I d x k)].
      intros Hx Hk. apply in_map_iff in Hx as (y & <- & Hy). cbn [snd] in Hk. injection Hk as <-. rewrite NJ. split; [reflexivity|lia].
    + intros d k. rewrite D2, LK. unfold nupd. destruct (Nat.eqb_spec d c) as [->|_]; [|exact (vi_struct _ _ I d k)]. intros Hk. injection Hk as <-. rewrite NJ. split; [reflexivity|lia].
    + intros d x k. rewrite SR. exact (vi_cache _ _ I d x k).
    + exact CN.
Qed.
(** With migration off nothing is ever bound. *)
Definition bare (s : vst) : Prop :=
  (forall d x, In x (nsegs (v_n s) d) -> snd x = None) /\ (forall d, v_str s d = None) /\ forall j x, In x (ncache (nsrcs (v_n s) j)) -> snd x = None.
Lemma bare_0 : bare v0.
Proof. split; [intros d x []|]. split; [intros d; reflexivity|]. intros j x. unfold v0. cbn [v_n nsrcs]. destruct (Nat.eqb j DEF); intros []. Qed.
Lemma bare_req g s c n cached s' : VI g s -> bare s -> vstep g (VReq c n cached) s = Ok s' -> bare s'.
Proof.
  intros I (B1 & B2 & B3). cbn [vstep nstep]. set (j := nlink (v_n s) c). destruct (ns_request (nsrcs (v_n s) j) n cached) as [q x] eqn:E. cbn [rbind]. intros H. injection H as <-.
  assert (Q : (forall y, In y (ncache q) -> In y (ncache (nsrcs (v_n s) j))) /\ snd x = None).
  { unfold ns_request in E. destruct (if cached then ns_take n (ncache (nsrcs (v_n s) j)) else None) as [[y l]|] eqn:T.
    - injection E as <- <-. destruct cached; [|discriminate]. destruct (take_in _ _ _ _ T) as (T1 & T2). cbn [ncache]. split; [exact T2|exact (B3 j y T1)].
    - injection E as <- <-. split; [intros y Hy; exact Hy|]. cbn [snd]. unfold ns_bind. rewrite (vi_str _ _ I j). reflexivity. }
  destruct Q as (Q1 & Q2). unfold bare. cbn [v_n v_str nsegs nsrcs]. split; [|split; [exact B2|]].
  - intros d y. unfold nupd. destruct (Nat.eqb_spec d c) as [->|_]; [|exact (B1 d y)]. intros [<-|Hy]; [exact Q2|exact (B1 c y Hy)].
  - intros i y. unfold nupd. destruct (Nat.eqb_spec i j) as [->|_]; [|exact (B3 i y)]. intros Hy. exact (B3 j y (Q1 y Hy)).
Qed.
Lemma bare_free g s c i keep s' : bare s -> vstep g (VFree c i keep) s = Ok s' -> bare s'.
Proof.
  intros (B1 & B2 & B3). cbn [vstep nstep]. set (j := nlink (v_n s) c). destruct (nth_error (nsegs (v_n s) c) i) as [x|] eqn:E; cbn [rbind]; intros H; injection H as <-.
  2:{ split; [exact B1|]. split; [exact B2|exact B3]. }
  apply nth_error_In in E. unfold bare. cbn [v_n v_str nsegs nsrcs]. split; [|split; [exact B2|]].
  - intros d y. unfold nupd. destruct (Nat.eqb_spec d c) as [->|_]; [|exact (B1 d y)]. intros Hy. exact (B1 c y (remove_in _ _ _ Hy)).
  - intros d y. unfold nupd. destruct (Nat.eqb_spec d j) as [->|_]; [|exact (B3 d y)]. unfold ns_free. destruct keep; cbn [ncache]; [|exact (B3 j y)].
    intros [<-|Hy]; [exact (B1 c x E)|exact (B3 j y Hy)].
Qed.
Lemma VI_start g s c h s' : vgood g -> VI g s -> vvalid s (VStart c h) -> vstep g (VStart c h) s = Ok s' -> VI g s' /\ nsegs (v_n s') = nsegs (v_n s) /\ v_str s' = v_str s /\ nsrcs (v_n s') = nsrcs (v_n s).
Proof.
  intros G I (V1 & V2). cbn [vstep]. destruct (local_src g true h s) as [[j s1]| | |] eqn:E; cbn [rbind]; try discriminate. destruct (local_src_ok g true h s j s1 G I E) as (J & N & S & CN & _).
  intros H. injection H as <-. rewrite N, S. cbn [v_n v_str nsegs nsrcs]. split; [|split; [reflexivity|split; reflexivity]]. pose proof (to_nat_src g j G J) as TJ.
  constructor; cbn [v_n v_str v_cnt nsrcs nsegs nlink].
  - exact (vi_node _ _ I).
  - exact (vi_str _ _ I).
  - intros d. unfold nupd. destruct (Nat.eqb d c); [exact TJ|exact (vi_link _ _ I d)].
  - exact (vi_size _ _ I).
  - exact (vi_csize _ _ I).
  - intros d x k. unfold nupd. destruct (Nat.eqb_spec d c) as [->|_]; [rewrite V1; intros []|exact (vi_seg _ _ I d x k)].
  - intros d k. unfold nupd. destruct (Nat.eqb_spec d c) as [->|_]; [rewrite V2; discriminate|exact (vi_struct _ _ I d k)].
  - exact (vi_cache _ _ I).
  - exact CN.
Qed.
Lemma VI_step g s a s' : vgood g -> VI g s /\ (v_mig g = false -> bare s) -> vvalid s a -> vstep g a s = Ok s' -> VI g s' /\ (v_mig g = false -> bare s').
Proof.
  intros G (I & B) V H. destruct a as [c h|c n cached|c i keep|c h].
  - destruct (VI_start g s c h s' G I V H) as (I' & S1 & S2 & S3). split; [exact I'|]. intros O. destruct (B O) as (B1 & B2 & B3). unfold bare. rewrite S1, S2, S3. split; [exact B1|split; [exact B2|exact B3]].
  - split; [exact (VI_req g s c n cached s' I V H)|]. intros O. exact (bare_req g s c n cached s' I (B O) H).
  - split; [exact (VI_free g s c i keep s' I H)|]. intros O. exact (bare_free g s c i keep s' (B O) H).
  - split; [apply (VI_move g s c h s' G); [|exact I|exact H]; intros O; destruct (B O) as (B1 & B2 & _); split; [exact B1|exact B2]|]. intros O. destruct (B O) as (B1 & B2 & B3).
    destruct (move_cases g s c h s' G I H) as (j & s1 & E & D). destruct (local_src_ok g false h s j s1 G I E) as (_ & N & S & _). unfold bare.
    destruct D as [(_ & ->)|(_ & _ & SR & _ & [(_ & D1 & D2)|(O' & _)])]; [rewrite N, S; split; [exact B1|split; [exact B2|exact B3]]| |congruence].
    split; [intros d x; rewrite D1; exact (B1 d x)|]. split; [intros d; rewrite D2; exact (B2 d)|]. rewrite SR. exact B3.
Qed.
Lemma vreach_VI g s : vgood g -> vreach g s -> VI g s /\ (v_mig g = false -> bare s).
Proof.
  intros G R. induction R as [|s a s' R IH V H]; [split; [exact (VI_0 g G)|intros _; exact bare_0]|]. exact (VI_step g s a s' G IH V H).
Qed.

(** ** What the theorems say *)
Lemma never_elsewhere g s : vgood g -> vreach g s -> right_node s.
Proof.
  intros G R. destruct (vreach_VI g s G R) as (I & _). split; [|split].
  - intros c x k Hx Hk. rewrite (vi_node _ _ I). exact (proj1 (vi_seg _ _ I c x k Hx Hk)).
  - intros c k Hk. rewrite (vi_node _ _ I). exact (proj1 (vi_struct _ _ I c k Hk)).
  - intros j x k Hx Hk. rewrite (vi_node _ _ I). exact (proj1 (vi_cache _ _ I j x k Hx Hk)).
Qed.
Lemma link_is g s c k : vgood g -> VI g s -> (k < v_nodes g) -> 0 <= k -> node_of (nlink (v_n s) c) = k -> nlink (v_n s) c = Z.to_nat k.
Proof.
  unfold vgood. intros G I K0 K1 E. destruct (vi_link _ _ I c) as [L|L].
  - rewrite L in E. unfold node_of, DEF in E. cbn in E. lia.
  - rewrite (node_lt _ _ L) in E by lia. lia.
Qed.
Lemma local_src_at g h s k : vgood g -> v_rr g = false -> v_numa g = true -> local_source (v_nodes g) h = Ok k -> local_src g false h s = Ok (k, s).
Proof.
  intros G RR NU. unfold local_source, local_src. rewrite RR, NU. cbn [negb andb]. destruct (init_on_node h) as [r| | |]; cbn [rbind]; try discriminate.
  destruct (128 <? _); [discriminate|]. destruct (_ || _); [|discriminate]. intros H. injection H as <-. reflexivity.
Qed.
Lemma follows g s c h k : vgood g -> vreach g s -> v_rr g = false -> v_numa g = true -> 0 <= k < v_nodes g -> local_source (v_nodes g) h = Ok k ->
  exists s', vstep g (VMove c h) s = Ok s' /\ nlink (v_n s') c = Z.to_nat k /\ nnode (nsrcs (v_n s') (nlink (v_n s') c)) = k /\
    (forall d, d <> c -> nsegs (v_n s') d = nsegs (v_n s) d /\ nlink (v_n s') d = nlink (v_n s) d /\ v_str s' d = v_str s d) /\
    map fst (nsegs (v_n s') c) = map fst (nsegs (v_n s) c) /\
    (v_mig g = true -> nlink (v_n s) c <> Z.to_nat k -> v_str s' c = Some k /\ forall x, In x (nsegs (v_n s') c) -> snd x = Some k) /\
    (v_mig g = false -> nsegs (v_n s') c = nsegs (v_n s) c /\ v_str s' c = v_str s c).
Proof.
  intros G R RR NU K E. destruct (vreach_VI g s G R) as (I & _). pose proof (local_src_at g h s k G RR NU E) as L.
  assert (X : exists s', vstep g (VMove c h) s = Ok s').
  { cbn [vstep]. unfold move. rewrite L. cbn [rbind]. destruct (_ && _); [|eexists; reflexivity]. unfold migrate_chain. rewrite (vi_node _ _ I).
    rewrite (node_lt _ (v_nodes g)) by (unfold vgood in G; lia). rewrite Z2Nat.id by lia. unfold migrate_mem. cbn [fst]. change (STRUCT =? 0) with false. cbn [orb].
    assert (KB : (0 <=? k) && (k <? v_nodes g) = true) by lia. rewrite KB. destruct (v_mig g); cbn [negb rbind nstep].
    - rewrite (migrate_on _ _ _ K) by (intros x Hx; pose proof (vi_size _ _ I c x Hx); lia). cbn [rbind]. eexists. reflexivity.
    - rewrite migrate_off. cbn [rbind]. eexists. reflexivity. }
  destruct X as (s' & H). exists s'. split; [exact H|]. destruct (move_cases g s c h s' G I H) as (j & s1 & E1 & D). rewrite L in E1. injection E1 as <- <-.
  assert (NK : node_of (Z.to_nat k) = k) by (rewrite (node_lt _ (v_nodes g)) by (unfold vgood in G; lia); lia). rewrite NK in D.
  destruct D as [(EQ & ->)|(NE & LK & SR & _ & D)].
  - pose proof (link_is g s c k G I ltac:(lia) ltac:(lia) EQ) as LI. split; [exact LI|]. split; [rewrite (vi_node _ _ I), LI; exact NK|].
    split; [intros d _; split; [reflexivity|split; reflexivity]|]. split; [reflexivity|]. split; [intros _ X; contradiction|intros _; split; reflexivity].
  - rewrite LK, SR. unfold nupd at 1 2. rewrite Nat.eqb_refl. split; [reflexivity|]. split; [rewrite (vi_node _ _ I); exact NK|].
    assert (LO : forall d, d <> c -> nupd (nlink (v_n s)) c (Z.to_nat k) d = nlink (v_n s) d) by (intros d Hd; apply nupd_other; exact Hd).
    destruct D as [(OF & D1 & D2)|(O & _ & D1 & D2)].
    + split; [intros d Hd; rewrite D1, D2; split; [reflexivity|split; [exact (LO d Hd)|reflexivity]]|]. rewrite D1, D2. split; [reflexivity|]. split; [intros O; congruence|intros _; split; reflexivity].
    + rewrite D1, D2. split; [intros d Hd; rewrite !nupd_other by exact Hd; split; [reflexivity|split; reflexivity]|]. rewrite !nupd_same.
      split; [rewrite map_map; reflexivity|]. split; [|intros O'; congruence]. intros _ _. split; [reflexivity|]. intros x Hx. apply in_map_iff in Hx as (y & <- & _). reflexivity.
Qed.
(** hwloc answers 0 for success, which is taken for a failure (C59): a bound thread keeps the default source. *)
Lemma stays_default g s : vgood g -> v_rr g = false -> vbound g s -> vreach g s -> forall c, nlink (v_n s) c = DEF /\ v_str s c = None /\ forall x, In x (nsegs (v_n s) c) -> snd x = None.
Proof.
  intros G RR B R. assert (L : forall c, nlink (v_n s) c = DEF).
  { clear R. induction B as [|s c h k s' B IH T GC H|s a s' B IH V N H]; [intros c; reflexivity| |].
    - intros d. cbn [vstep] in H. unfold move in H. assert (E : local_src g false h s = Ok (128, s)).
      { unfold local_src. rewrite RR. assert (E : (if v_numa g && negb false then init_on_node h else Ok DEFAULT_ID) = Ok (-1) \/ (if v_numa g && negb false then init_on_node h else Ok DEFAULT_ID) = Ok DEFAULT_ID).
        { destruct (v_numa g); cbn [negb andb]; [left|right; reflexivity]. unfold init_on_node. destruct T as (_ & T & _). destruct (preferred_none h T) as (l & -> & _). cbn [rbind fst]. rewrite GC. reflexivity. }
        destruct E as [-> | ->]; cbn [rbind]; unfold DEFAULT_ID; cbn; rewrite orb_true_r; reflexivity. }
      rewrite E in H. cbn [rbind] in H. change (Z.to_nat 128) with DEF in H. rewrite (IH c), Z.eqb_refl in H. cbn [negb andb] in H. injection H as <-. exact (IH d).
    - intros d. destruct a as [c h|c n cached|c i keep|c h]; cbn [vstep nstep] in H.
      + unfold local_src in H. rewrite RR in H. rewrite andb_false_r in H. cbn in H. rewrite orb_true_r in H. cbn in H. injection H as <-. cbn [v_n nlink]. unfold nupd. destruct (Nat.eqb d c); [reflexivity|exact (IH d)].
      + destruct (ns_request _ _ _). cbn [rbind] in H. injection H as <-. exact (IH d).
      + destruct (nth_error _ _); cbn [rbind] in H; injection H as <-; exact (IH d).
      + exfalso. exact (N c h eq_refl). }
  intros c. destruct (vreach_VI g s G R) as (I & _). split; [exact (L c)|]. split.
  - destruct (v_str s c) as [k|] eqn:E; [|reflexivity]. pose proof (vi_struct _ _ I c k E) as (X & Y). rewrite (L c) in X. unfold node_of in X. rewrite Nat.eqb_refl in X. lia.
  - intros x Hx. destruct (snd x) as [k|] eqn:E; [|reflexivity]. pose proof (vi_seg _ _ I c x k Hx E) as (X & Y). rewrite (L c) in X. unfold node_of in X. rewrite Nat.eqb_refl in X. lia.
Qed.
(** From a node to no node: the object of node -1 is NULL. *)
Lemma to_unknown g s c h : vgood g -> vreach g s -> v_rr g = false -> v_numa g = true -> v_mig g = true -> nlink (v_n s) c <> DEF -> local_source (v_nodes g) h = Ok DEFAULT_ID ->
  vstep g (VMove c h) s = UB.
Proof.
  intros G R RR NU MG L E. destruct (vreach_VI g s G R) as (I & _). cbn [vstep]. unfold move. rewrite (local_src_at g h s _ G RR NU E). cbn [rbind]. rewrite !(vi_node _ _ I).
  change (Z.to_nat DEFAULT_ID) with DEF. assert (D : node_of DEF = -1) by (unfold node_of; rewrite Nat.eqb_refl; reflexivity). rewrite D.
  assert (X : (node_of (nlink (v_n s) c) =? -1) = false). { unfold node_of. destruct (Nat.eqb_spec (nlink (v_n s) c) DEF); [contradiction|]. lia. }
  rewrite X. cbn. unfold migrate_chain, migrate_mem. rewrite MG. cbn [fst negb]. change (STRUCT =? 0) with false. cbn. reflexivity.
Qed.
(** With the round robin the node of the thread plays no role. *)
Lemma robin_away g s c h1 h2 s1 s2 k : vgood g -> vreach g s -> v_rr g = true -> vstep g (VMove c h1) s = Ok s1 -> vstep g (VMove c h2) s1 = Ok s2 ->
  nlink (v_n s1) c = Z.to_nat (v_cnt s) /\ nlink (v_n s2) c = Z.to_nat ((v_cnt s + 1) mod v_nodes g) /\ (nlink (v_n s1) c <> k \/ nlink (v_n s2) c <> k).
Proof.
  intros G R RR H1 H2. destruct (vreach_VI g s G R) as (I & _).
  assert (ONE : forall s c h s', vreach g s -> vstep g (VMove c h) s = Ok s' -> nlink (v_n s') c = Z.to_nat (v_cnt s) /\ v_cnt s' = (v_cnt s + 1) mod v_nodes g).
  { clear - G RR. intros s c h s' R H. destruct (vreach_VI g s G R) as (I & _). destruct (move_cases g s c h s' G I H) as (j & s1 & E & D).
    destruct (local_src_ok g false h s j s1 G I E) as (J & N & S & CN & JR). specialize (JR RR). subst j. pose proof (vi_cnt _ _ I) as C0.
    assert (C1 : v_cnt s1 = (v_cnt s + 1) mod v_nodes g).
    { unfold local_src in E. destruct (if v_numa g && negb false then init_on_node h else Ok DEFAULT_ID) as [r| | |]; cbn [rbind] in E; try discriminate. rewrite RR in E. unfold robin in E.
      destruct (128 <? _); [discriminate|]. destruct (_ || _); [|discriminate]. injection E as _ <-. reflexivity. }
    destruct D as [(EQ & ->)|(_ & LK & _ & CC & _)].
    - split; [|exact C1]. rewrite N. assert (NK : node_of (Z.to_nat (v_cnt s)) = v_cnt s) by (rewrite (node_lt _ (v_nodes g)) by (unfold vgood in G; lia); lia).
      rewrite NK in EQ. exact (link_is g s c (v_cnt s) G I ltac:(lia) ltac:(lia) EQ).
    - split; [rewrite LK; apply nupd_same|]. rewrite CC. exact C1. }
  destruct (ONE s c h1 s1 R H1) as (A1 & A2). assert (R1 : vreach g s1) by (refine (vreach_s g s (VMove c h1) s1 R Logic.I H1)). destruct (ONE s1 c h2 s2 R1 H2) as (A3 & _). rewrite A2 in A3.
  split; [exact A1|]. split; [exact A3|]. rewrite A1, A3. pose proof (vi_cnt _ _ I) as C0. unfold vgood in G.
  assert (NE : (v_cnt s + 1) mod v_nodes g <> v_cnt s).
  { intros X. destruct (Z.eq_dec (v_cnt s + 1) (v_nodes g)) as [Y|Y]; [rewrite Y, Z_mod_same_full in X; lia|rewrite Z.mod_small in X by lia; lia]. }
  assert (0 <= (v_cnt s + 1) mod v_nodes g) by (apply Z.mod_pos_bound; lia). destruct (Nat.eq_dec (Z.to_nat (v_cnt s)) k) as [X|X]; [right; lia|left; exact X].
Qed.
Lemma bound_reach g s : vbound g s -> vreach g s.
Proof.
  intros B. induction B as [|s c h k s' B IH T GC H|s a s' B IH V N H]; [constructor| |].
  - exact (vreach_s g s (VMove c h) s' IH Logic.I H).
  - exact (vreach_s g s a s' IH V H).
Qed.
(** A new chain, whatever the node of its thread. *)
Lemma start_default g s c h : v_rr g = false -> exists s', vstep g (VStart c h) s = Ok s' /\ nlink (v_n s') c = DEF.
Proof. intros RR. cbn [vstep]. unfold local_src. rewrite RR, andb_false_r. cbn. rewrite orb_true_r. cbn. eexists. split; [reflexivity|]. cbn. unfold nupd. rewrite Nat.eqb_refl. reflexivity. Qed.
