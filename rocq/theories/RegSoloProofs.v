(** A call of the registry that runs alone does what the functions of RegionModel.v do; a quiet registry is in a state of the histories of C29. *)
From Verif Require Import Word Res RegionModel RegionSpec RegionProofs RegConcModel RegConcSpec RegConcProofs RegSoloSpec.
From Coq Require Import ZArith List Bool Lia Arith.
Import ListNotations.
Open Scope Z_scope.

Section Solo.
  Context (once : bool) (t : nat).
  Definition goes (s : cst) (R : res cst) : Prop := exists n, turns once (repeat t n) s = R.
  Lemma goes_refl s : goes s (Ok s). Proof. exists O. reflexivity. Qed.
  Lemma goes_step s s1 R : cgo once t s = Ok s1 -> goes s1 R -> goes s R.
  Proof. intros E (n & H). exists (S n). cbn. rewrite E. exact H. Qed.
  Lemma goes_one s s1 : cgo once t s = Ok s1 -> goes s (Ok s1). Proof. intros E. exact (goes_step s s1 _ E (goes_refl s1)). Qed.
  Lemma goes_abort s : cgo once t s = Abort -> goes s Abort. Proof. intros E. exists 1%nat. cbn. rewrite E. reflexivity. Qed.
  Lemma goes_ub s : cgo once t s = UB -> goes s UB. Proof. intros E. exists 1%nat. cbn. rewrite E. reflexivity. Qed.
  Lemma goes_trans s s1 R : goes s (Ok s1) -> goes s1 R -> goes s R.
  Proof.
    intros (n & H) (m & K). exists (n + m)%nat. rewrite repeat_app. rewrite (turns_app once _ _ s s1 H). exact K.
  Qed.

  Definition Rel (s : cst) (r : rst) : Prop := same (seen s) r /\ good s.
  Lemma rel_go s r pl : Rel s r -> Rel (go_to s t pl) r. Proof. exact (fun H => H). Qed.
  Lemma rel_hdr s r b : Rel s r -> hdr r b = chdr s b. Proof. intros ((_ & H) & _). symmetry. exact (H b). Qed.
  Lemma at_self s pl : cat (go_to s t pl) t = pl. Proof. cbn. apply fupd_same. Qed.
  (** The region of an address on both sides. *)
  Lemma rel_reg s r id : Rel s r -> match cregs s id with Some k => exists e, regs r id = Some e /\ forall i, ctabs s k i = e i | None => regs r id = None end.
  Proof.
    intros ((H & _) & _). specialize (H id). cbn in H. destruct (cregs s id) as [k|]; cbn in H; destruct (regs r id) as [e|] eqn:E; try contradiction; [|reflexivity].
    exists e. split; [reflexivity|exact H].
  Qed.
  Lemma id_range a : get_id a = Ok (a / TB) \/ get_id a = UB.
  Proof. unfold get_id. destruct (_ && _); auto. Qed.

  (** 2262-2275: the entry of an address, with the set-up of its region. *)
  Lemma get_run s r w : Rel s r -> cat s t = PGet w ->
    match rd_entry (target w) r with
    | Ok (e, r1) => exists s1 k, goes s (Ok s1) /\ cat s1 t = PRead w k /\ Rel s1 r1 /\ cregs s1 (target w / TB) = Some k /\ entry s1 k (target w) = e
    | UB => goes s UB
    | _ => False
    end.
  Proof.
    intros RL P. unfold rd_entry. destruct (id_range (target w)) as [E|E]; rewrite E; cbn [rbind].
    2: { apply goes_ub. unfold cgo. rewrite P, E. reflexivity. }
    pose proof (rel_reg s r (target w / TB) RL) as RG. destruct (cregs s (target w / TB)) as [k|] eqn:C.
    - destruct RG as (e & RE & RV). unfold setup. rewrite RE, RE. exists (go_to s t (PRead w k)), k.
      split; [apply goes_one; unfold cgo; rewrite P, E; cbn [rbind]; rewrite C; reflexivity|]. split; [apply at_self|]. split; [exact RL|]. split; [exact C|]. unfold entry. cbn. rewrite RV. reflexivity.
    - unfold setup. rewrite RG. cbn [regs]. rewrite zupd_same. destruct RL as (SM & G1 & G2 & G3 & G4).
      eexists _, (cnext s). split; [|split; [|split; [|split]]].
      + eapply goes_step; [unfold cgo; rewrite P, E; cbn [rbind]; rewrite C; reflexivity|].
        eapply goes_step; [unfold cgo; rewrite at_self; cbn [go_to cini]; rewrite G1; reflexivity|].
        eapply goes_step; [unfold cgo; rewrite at_self; cbn [go_to clck]; rewrite G2; reflexivity|].
        eapply goes_step; [unfold cgo; rewrite at_self, E; cbn [rbind]; cbn [go_to with_lock cregs]; rewrite C; reflexivity|].
        eapply goes_step; [unfold cgo; rewrite at_self, E; cbn [rbind]; reflexivity|].
        apply goes_one. unfold cgo. rewrite at_self. reflexivity.
      + apply at_self.
      + cbn [go_to with_new with_lock cnext]. split; [|split; [exact G1|split; [reflexivity|split]]].
        * destruct SM as (S1 & S2). split; [|exact S2]. intros id. specialize (S1 id). cbn in *. unfold zupd. destruct (Z.eqb_spec id (target w / TB)) as [->|N].
          -- cbn. intros i. rewrite fupd_same. reflexivity.
          -- destruct (cregs s id) as [k|] eqn:K; cbn in *; destruct (regs r id); try contradiction; [|exact Logic.I]. intros i. rewrite fupd_other; [apply S1|]. intros ->. apply G3 in K. lia.
        * cbn. intros id k. unfold zupd. destruct (id =? target w / TB); [intros [= <-]; lia|]. intros K. apply G3 in K. lia.
        * cbn. intros i j k. unfold zupd. destruct (Z.eqb_spec i (target w / TB)), (Z.eqb_spec j (target w / TB)); intros K1 K2; [congruence| | |exact (G4 _ _ _ K1 K2)].
          -- injection K1 as <-. apply G3 in K2. lia.
          -- injection K2 as <-. apply G3 in K1. lia.
      + cbn. apply zupd_same.
      + unfold entry. cbn. rewrite fupd_same. reflexivity.
  Qed.
  (** The write that may follow. *)
  Lemma put_run s r a k v pl : Rel s r -> cregs s (a / TB) = Some k -> get_id a = Ok (a / TB) -> exists r1, wr_entry a v r = Ok r1 /\ Rel (go_to (with_entry s k (slot a) v) t pl) r1.
  Proof.
    intros RL C E. unfold wr_entry. rewrite E. cbn [rbind]. pose proof (rel_reg s r (a / TB) RL) as RG. rewrite C in RG. destruct RG as (e & RE & RV). unfold setup. rewrite RE, RE.
    eexists. split; [reflexivity|]. destruct RL as ((S1 & S2) & G1 & G2 & G3 & G4). split; [|split; [exact G1|split; [exact G2|split; [exact G3|exact G4]]]].
    split; [|exact S2]. intros id. specialize (S1 id). cbn in *. destruct (Z.eq_dec id (a / TB)) as [->|N].
    - rewrite zupd_same, C. cbn. intros i. rewrite fupd_same. unfold zupd, slot. destruct (_ =? _); [reflexivity|apply RV].
    - rewrite zupd_other by exact N. destruct (cregs s id) as [k'|] eqn:K; cbn in *; destruct (regs r id); try contradiction; [|exact Logic.I]. intros i. rewrite fupd_other; [apply S1|]. intros ->. apply N. exact (G4 _ _ _ K C).
  Qed.
  Lemma rd_id a r e r1 : rd_entry a r = Ok (e, r1) -> get_id a = Ok (a / TB).
  Proof. unfold rd_entry. destruct (id_range a) as [E|E]; rewrite E; [reflexivity|discriminate]. Qed.
  Lemma hdr_with s r b h : Rel s r -> Rel (with_hdr s b h) (mkR (regs r) (zupd (hdr r) b h)).
  Proof. intros ((S1 & S2) & G). split; [split; [exact S1|]|exact G]. intros x. cbn. unfold zupd. destruct (x =? b); [reflexivity|apply S2]. Qed.

  (** 2330-2339. *)
  Lemma set_run fuel b : forall a s r, Rel s r -> cat s t = PLoop (WSet b a) ->
    match set_loop fuel b a r with
    | Ok r' => exists s', goes s (Ok s') /\ Rel s' r' /\ cat s' t = PDone
    | Abort => goes s Abort | UB => goes s UB | OutOfFuel => True
    end.
  Proof.
    induction fuel as [|fuel IH]; intros a s r RL P; [exact Logic.I|]. cbn [set_loop]. unfold rd_hdr. rewrite (rel_hdr s r b RL).
    assert (G : cgo once t s = loop_test s t (WSet b a)) by (unfold cgo; rewrite P; reflexivity). cbn [loop_test] in G.
    destruct (chdr s b) as [[sz c]|]; cbn [rbind]; [|apply goes_ub; exact G]. destruct (a <? add64 b sz).
    2: { eexists. split; [apply goes_one; exact G|]. split; [exact RL|apply at_self]. }
    pose proof (get_run (go_to s t (PGet (WSet b a))) r (WSet b a) (rel_go s r _ RL) (at_self s _)) as GR. cbn [target] in GR.
    destruct (rd_entry a r) as [[e r1]| | |] eqn:RE; cbn [rbind]; [|exact (goes_step _ _ _ G GR)|contradiction|contradiction].
    destruct GR as (s1 & k & G1 & P1 & RL1 & C1 & E1).
    assert (G2 : cgo once t s1 = if e =? 0 then Ok (go_to s1 t (PWrite (WSet b a) k)) else Abort) by (unfold cgo; rewrite P1; unfold first_read; cbn [target]; rewrite E1; reflexivity).
    destruct (e =? 0).
    2: { apply (goes_step _ _ _ G). apply (goes_trans _ _ _ G1). apply goes_abort. exact G2. }
    destruct (put_run (go_to s1 t (PWrite (WSet b a) k)) r1 a k b (PLoop (WSet b (add64 a MB2))) RL1 C1 (rd_id _ _ _ _ RE)) as (r2 & W2 & RL2). rewrite W2. cbn [rbind].
    set (s2 := go_to _ t (PLoop (WSet b (add64 a MB2)))) in *.
    assert (GG : forall R, goes s2 R -> goes s R).
    { intros R H. apply (goes_step _ _ _ G). apply (goes_trans _ _ _ G1). apply (goes_step _ _ _ G2). refine (goes_step _ s2 _ _ H). unfold cgo. rewrite at_self. reflexivity. }
    specialize (IH (add64 a MB2) s2 r2 RL2 (at_self _ _)). destruct (set_loop fuel b (add64 a MB2) r2) as [r'| | |]; [|exact (GG _ IH)|exact (GG _ IH)|exact Logic.I].
    destruct IH as (s' & H1 & H2 & H3). exists s'. split; [exact (GG _ H1)|]. split; assumption.
  Qed.
  (** 2291-2296. *)
  Lemma unset_run fuel b : forall a s r, Rel s r -> cat s t = PLoop (WUnset b a) ->
    match unset_loop fuel b a r with
    | Ok r' => exists s', goes s (Ok s') /\ Rel s' (mkR (regs r') (zupd (hdr r') b None)) /\ cat s' t = PDone
    | Abort => False | UB => goes s UB | OutOfFuel => True
    end.
  Proof.
    induction fuel as [|fuel IH]; intros a s r RL P; [exact Logic.I|]. cbn [unset_loop]. unfold rd_hdr. rewrite (rel_hdr s r b RL).
    assert (G : cgo once t s = loop_test s t (WUnset b a)) by (unfold cgo; rewrite P; reflexivity). cbn [loop_test] in G.
    destruct (chdr s b) as [[sz c]|]; cbn [rbind]; [|apply goes_ub; exact G]. destruct (a <? add64 b sz).
    2: { eexists. split; [apply goes_one; exact G|]. split; [exact (hdr_with s r b None RL)|apply at_self]. }
    pose proof (get_run (go_to s t (PGet (WUnset b a))) r (WUnset b a) (rel_go s r _ RL) (at_self s _)) as GR. cbn [target] in GR.
    destruct (rd_entry a r) as [[e r1]| | |] eqn:RE; cbn [rbind]; [|exact (goes_step _ _ _ G GR)|contradiction|contradiction].
    destruct GR as (s1 & k & G1 & P1 & RL1 & C1 & E1).
    assert (G2 : cgo once t s1 = Ok (go_to s1 t (if e =? b then PWrite (WUnset b a) k else PLoop (WUnset b (add64 a MB2))))) by (unfold cgo; rewrite P1; unfold first_read; cbn [target]; rewrite E1; reflexivity).
    assert (M : exists s2 r2, (if e =? b then wr_entry a 0 r1 else Ok r1) = Ok r2 /\ Rel s2 r2 /\ cat s2 t = PLoop (WUnset b (add64 a MB2)) /\ forall R, goes s2 R -> goes s R).
    { destruct (e =? b).
      - destruct (put_run (go_to s1 t (PWrite (WUnset b a) k)) r1 a k 0 (PLoop (WUnset b (add64 a MB2))) RL1 C1 (rd_id _ _ _ _ RE)) as (r2 & W2 & RL2). eexists _, r2. split; [exact W2|]. split; [exact RL2|]. split; [apply at_self|].
        intros R H. apply (goes_step _ _ _ G). apply (goes_trans _ _ _ G1). apply (goes_step _ _ _ G2). refine (goes_step _ _ _ _ H). unfold cgo. rewrite at_self. reflexivity.
      - exists (go_to s1 t (PLoop (WUnset b (add64 a MB2)))), r1. split; [reflexivity|]. split; [exact RL1|]. split; [apply at_self|]. intros R H. apply (goes_step _ _ _ G). apply (goes_trans _ _ _ G1). exact (goes_step _ _ _ G2 H). }
    destruct M as (s2 & r2 & -> & RL2 & P2 & GG). cbn [rbind]. specialize (IH (add64 a MB2) s2 r2 RL2 P2).
    destruct (unset_loop fuel b (add64 a MB2) r2) as [r'| | |]; [|exact (GG _ IH)|contradiction|exact Logic.I].
    destruct IH as (s' & H1 & H2 & H3). exists s'. split; [exact (GG _ H1)|]. split; assumption.
  Qed.
  (** 2391-2416. *)
  Lemma find_run s r p : Rel s r -> cat s t = PGet (WFind p) ->
    match get_macro_bloc p r with
    | Ok (v, r') => exists s', goes s (Ok s') /\ Rel s' r' /\ cat s' t = PFound p v
    | Abort => False | UB => goes s UB | OutOfFuel => True
    end.
  Proof.
    intros RL P. unfold get_macro_bloc. pose proof (get_run s r (WFind p) RL P) as GR. cbn [target] in GR.
    destruct (rd_entry p r) as [[e r1]| | |]; cbn [rbind]; [|exact GR|contradiction|contradiction]. destruct GR as (s1 & k & G1 & P1 & RL1 & C1 & E1).
    assert (A : if ((e =? 0) || (p <? e)) && (MB2 <? p) then exists s2, goes s (Ok s2) /\ cat s2 t = PGet (WBack p) /\ Rel s2 r1 else exists s2, goes s (Ok s2) /\ Rel s2 r1 /\ cat s2 t = PFound p e).
    { assert (F : forall o, once = o -> cgo once t s1 = first_read o s1 t (WFind p) k) by (intros o <-; unfold cgo; rewrite P1; reflexivity). unfold first_read in F. cbn [target] in F. rewrite E1 in F.
      assert (O : once = true \/ once = false) by (destruct once; auto). destruct O as [O|O]; specialize (F _ O); cbn match in F.
      - destruct (((e =? 0) || (p <? e)) && (MB2 <? p)).
        + eexists. split; [apply (goes_trans _ _ _ G1); apply goes_one; exact F|]. split; [apply at_self|exact RL1].
        + eexists. split; [apply (goes_trans _ _ _ G1); apply goes_one; exact F|]. split; [exact RL1|apply at_self].
      - destruct (e =? 0); cbn [orb].
        + destruct (MB2 <? p); cbn [andb].
          * eexists. split; [apply (goes_trans _ _ _ G1); apply goes_one; exact F|]. split; [apply at_self|exact RL1].
          * eexists. split; [apply (goes_trans _ _ _ G1); apply (goes_step _ _ _ F); apply goes_one; unfold cgo; rewrite at_self; reflexivity|]. split; [exact RL1|]. rewrite at_self. f_equal. exact E1.
        + assert (F2 : cgo once t (go_to s1 t (PRead2 p k)) = Ok (go_to (go_to s1 t (PRead2 p k)) t (if (p <? e) && (MB2 <? p) then PGet (WBack p) else PRead3 p k))).
          { unfold cgo. rewrite at_self. change (entry (go_to s1 t (PRead2 p k)) k p) with (entry s1 k p). rewrite E1. reflexivity. }
          destruct ((p <? e) && (MB2 <? p)).
          * eexists. split; [apply (goes_trans _ _ _ G1); apply (goes_step _ _ _ F); apply goes_one; exact F2|]. split; [apply at_self|exact RL1].
          * eexists. split; [apply (goes_trans _ _ _ G1); apply (goes_step _ _ _ F); apply (goes_step _ _ _ F2); apply goes_one; unfold cgo; rewrite at_self; reflexivity|]. split; [exact RL1|]. rewrite at_self. f_equal. exact E1. }
    destruct (((e =? 0) || (p <? e)) && (MB2 <? p)); [|exact A]. clear G1 P1 RL1 C1 E1 s1 k. destruct A as (s1 & G1 & P1 & RL1).
    pose proof (get_run s1 r1 (WBack p) RL1 P1) as GR. cbn [target] in GR.
    destruct (rd_entry (p - MB2) r1) as [[e2 r2]| | |]; cbn [rbind]; [|exact (goes_trans _ _ _ G1 GR)|contradiction|contradiction]. destruct GR as (s2 & k & G2 & P2 & RL2 & C2 & E2).
    assert (G3 : forall R, goes s2 R -> goes s R) by (intros R H; exact (goes_trans _ _ _ G1 (goes_trans _ _ _ G2 H))). clear G1 G2 P1 RL1 s1.
    assert (F : forall o, once = o -> cgo once t s2 = first_read o s2 t (WBack p) k) by (intros o <-; unfold cgo; rewrite P2; reflexivity). unfold first_read in F. cbn [target] in F. rewrite E2 in F.
    assert (O : once = true \/ once = false) by (destruct once; auto).
    destruct (e2 =? 0); [eexists; split; [apply G3; apply goes_one; exact (F _ eq_refl)|]; split; [exact RL2|apply at_self]|].
    assert (A : if e2 <? p then exists s3, goes s (Ok s3) /\ Rel s3 r2 /\ cat s3 t = PHdr p k e2 e2 /\ entry s3 k (p - MB2) = e2 else exists s3, goes s (Ok s3) /\ Rel s3 r2 /\ cat s3 t = PFound p 0).
    { destruct O as [O|O]; specialize (F _ O); cbn match in F.
      - destruct (e2 <? p); eexists; (split; [apply G3; apply goes_one; exact F|]); (split; [exact RL2|]); [split; [apply at_self|exact E2]|apply at_self].
      - assert (F2 : cgo once t (go_to s2 t (PBack2 p k)) = Ok (go_to (go_to s2 t (PBack2 p k)) t (if e2 <? p then PBack3 p k else PFound p 0))).
        { unfold cgo. rewrite at_self. change (entry (go_to s2 t (PBack2 p k)) k (p - MB2)) with (entry s2 k (p - MB2)). rewrite E2. reflexivity. }
        destruct (e2 <? p).
        + eexists. split; [apply G3; apply (goes_step _ _ _ F); apply (goes_step _ _ _ F2); eapply goes_step; [unfold cgo; rewrite at_self; reflexivity|]; apply goes_one; unfold cgo; rewrite at_self; reflexivity|].
          split; [exact RL2|]. split; [rewrite at_self; f_equal; exact E2|exact E2].
        + eexists. split; [apply G3; apply (goes_step _ _ _ F); apply goes_one; exact F2|]. split; [exact RL2|apply at_self]. }
    destruct (e2 <? p); [|exact A]. destruct A as (s3 & G4 & RL3 & P3 & E3). unfold rd_hdr. rewrite (rel_hdr s3 r2 e2 RL3).
    assert (G5 : forall o, once = o -> cgo once t s3 = match chdr s3 e2 with None => UB | Some (sz, _) => Ok (go_to s3 t (if p <? add64 e2 sz then (if o then PFound p e2 else PBack5 p k) else PFound p 0)) end) by (intros o <-; unfold cgo; rewrite P3; reflexivity).
    destruct (chdr s3 e2) as [[sz c]|]; cbn [rbind]; [|exact (goes_trans _ _ _ G4 (goes_ub _ (G5 _ eq_refl)))]. destruct (p <? add64 e2 sz).
    - destruct O as [O|O]; specialize (G5 _ O); cbn match in G5.
      + eexists. split; [exact (goes_trans _ _ _ G4 (goes_one _ _ G5))|]. split; [exact RL3|apply at_self].
      + eexists. split; [apply (goes_trans _ _ _ G4); apply (goes_step _ _ _ G5); apply goes_one; unfold cgo; rewrite at_self; reflexivity|]. split; [exact RL3|]. rewrite at_self. f_equal. exact E3.
    - eexists. split; [exact (goes_trans _ _ _ G4 (goes_one _ _ (G5 _ eq_refl)))|]. split; [exact RL3|apply at_self].
  Qed.
End Solo.

(** 2363-2384 on the region with header [k], chain [c] not NULL. *)
Lemma del_run once t k c n : c <> 0 -> forall i s e, Z.of_nat n = ENTRIES - i -> cat s t = PDel1 k i c -> (forall j, ctabs s k j = e j) ->
  match del_loop n i c (chdr s) e with
  | Ok e' => exists s', goes once t s (Ok s') /\ cat s' t = PDone /\ cregs s' = cregs s /\ cnext s' = cnext s /\ chdr s' = chdr s /\ cini s' = cini s /\ clck s' = false /\
      (forall j, ctabs s' k j = e' j) /\ forall k', k' <> k -> ctabs s' k' = ctabs s k'
  | UB => goes once t s UB
  | _ => False
  end.
Proof.
  intros NC. induction n as [|n IH]; intros i s e N P T.
  - cbn [del_loop]. assert (i = ENTRIES) as -> by lia. eexists. split; [|split; [apply (at_self t)|]].
    + eapply goes_step; [unfold cgo; rewrite P, Z.eqb_refl; reflexivity|]. apply goes_one. unfold cgo. rewrite at_self. reflexivity.
    + repeat (split; [reflexivity|]). split; [exact T|reflexivity].
  - cbn [del_loop]. destruct (Z.eqb_spec c 0) as [C|_]; [contradiction|].
    assert (G : cgo once t s = Ok (go_to s t (if e i =? 0 then PDel1 k (i + 1) c else PDel2 k i c))).
    { unfold cgo. rewrite P, T. destruct (Z.eqb_spec i ENTRIES) as [->|_]; [lia|reflexivity]. }
    assert (STEP : forall s2 e2, cat s2 t = PDel1 k (i + 1) c -> (forall j, ctabs s2 k j = e2 j) -> (forall R, goes once t s2 R -> goes once t s R) -> cregs s2 = cregs s -> cnext s2 = cnext s ->
      chdr s2 = chdr s -> cini s2 = cini s -> (forall k', k' <> k -> ctabs s2 k' = ctabs s k') ->
      match del_loop n (i + 1) c (chdr s) e2 with
      | Ok e' => exists s', goes once t s (Ok s') /\ cat s' t = PDone /\ cregs s' = cregs s /\ cnext s' = cnext s /\ chdr s' = chdr s /\ cini s' = cini s /\ clck s' = false /\
          (forall j, ctabs s' k j = e' j) /\ forall k', k' <> k -> ctabs s' k' = ctabs s k'
      | UB => goes once t s UB
      | _ => False
      end).
    { intros s2 e2 P2 T2 GG H1 H2 H3 H4 H5. specialize (IH (i + 1) s2 e2 ltac:(lia) P2 T2). rewrite H3 in IH. destruct (del_loop n (i + 1) c (chdr s) e2) as [e'| | |]; [|exact (GG _ IH)|exact IH|exact IH].
      destruct IH as (s' & K1 & K2 & K3 & K4 & K5 & K6 & K7 & K8 & K9). exists s'. split; [exact (GG _ K1)|]. split; [exact K2|]. split; [congruence|]. split; [congruence|]. split; [congruence|]. split; [congruence|].
      split; [exact K7|]. split; [exact K8|]. intros k' Nk. rewrite K9 by exact Nk. apply H5. exact Nk. }
    destruct (e i =? 0) eqn:EI.
    + apply (STEP (go_to s t (PDel1 k (i + 1) c)) e); try reflexivity; [apply at_self|exact T|]. intros R H. exact (goes_step once t _ _ _ G H).
    + assert (G2 : cgo once t (go_to s t (PDel2 k i c)) = match chdr s (e i) with None => UB | Some (_, ch) => Ok (go_to (go_to s t (PDel2 k i c)) t (if ch =? c then PDel3 k i c else PDel1 k (i + 1) c)) end).
      { unfold cgo. rewrite at_self. cbn [go_to ctabs chdr]. rewrite T. reflexivity. }
      destruct (chdr s (e i)) as [[z ch]|]; [|exact (goes_step once t _ _ _ G (goes_ub once t _ G2))]. destruct (ch =? c).
      * apply (STEP (go_to (with_entry (go_to (go_to s t (PDel2 k i c)) t (PDel3 k i c)) k i 0) t (PDel1 k (i + 1) c)) (zupd e i 0)); try reflexivity; [apply at_self| | |].
        -- intros j. cbn. rewrite fupd_same. unfold zupd. destruct (j =? i); [reflexivity|apply T].
        -- intros R H. refine (goes_step once t _ _ _ G (goes_step once t _ _ _ G2 (goes_step once t _ _ _ _ H))). unfold cgo. rewrite at_self. reflexivity.
        -- intros k' Nk. cbn. apply fupd_other. exact Nk.
      * apply (STEP (go_to (go_to s t (PDel2 k i c)) t (PDel1 k (i + 1) c)) e); try reflexivity; [apply at_self| |]; [exact T|]. intros R H. exact (goes_step once t _ _ _ G (goes_step once t _ _ _ G2 H)).
Qed.

Lemma goes_solo once t a s s1 R : cstep once (start t a) s = Ok s1 -> goes once t s1 R -> exists n, solo once t a n s = R.
Proof. intros E (n & H). exists n. unfold solo. rewrite E. exact H. Qed.
Lemma start_other once t a s s1 u : u <> t -> cstep once (start t a) s = Ok s1 -> cat s1 u = cat s u.
Proof.
  intros N. destruct a as [c b sz|b|p|x c]; cbn [start cstep]; intros E.
  - injection E as <-. cbn. apply fupd_other. exact N.
  - injection E as <-. cbn. apply fupd_other. exact N.
  - injection E as <-. cbn. apply fupd_other. exact N.
  - destruct (get_id x) as [id| | |]; cbn [rbind] in E; try discriminate. destruct (cregs s id).
    + destruct (clck s); injection E as <-; [reflexivity|]. cbn. apply fupd_other. exact N.
    + injection E as <-. cbn. apply fupd_other. exact N.
Qed.
Lemma solo_other once t a n s s' u : solo once t a n s = Ok s' -> u <> t -> cat s' u = cat s u.
Proof.
  unfold solo. intros E N. destruct (cstep once (start t a) s) as [s1| | |] eqn:E1; cbn [rbind] in E; try discriminate.
  rewrite <- (start_other once t a s s1 u N E1). apply (turns_other once (repeat t n) u s1 s'); [|exact E]. intros v V. apply repeat_spec in V. congruence.
Qed.
Lemma rel_self s : good s -> Rel s (seen s).
Proof. intros G. split; [|exact G]. split; [|reflexivity]. intros id. cbn. destruct (cregs s id); cbn; [reflexivity|exact Logic.I]. Qed.
Lemma over_done once t a s s' v r' : (match a with RFind _ => False | _ => True end) -> (exists n, solo once t a n s = Ok s') -> Rel s' r' -> cat s' t = PDone ->
  exists n s', solo once t a n s = Ok s' /\ cat s' t = over a v /\ same (seen s') r' /\ good s' /\ forall u, u <> t -> cat s' u = cat s u.
Proof.
  intros A (n & E) (R1 & R2) P. exists n, s'. split; [exact E|]. split; [destruct a; try exact P; contradiction|]. split; [exact R1|]. split; [exact R2|].
  intros u N. exact (solo_other once t a n s s' u E N).
Qed.
Lemma solo_ok once t a s : good s -> (forall x c, a = RDel x c -> c <> 0) ->
  match rstep a (seen s) with
  | Ok (v, r') => exists n s', solo once t a n s = Ok s' /\ cat s' t = over a v /\ same (seen s') r' /\ good s' /\ forall u, u <> t -> cat s' u = cat s u
  | UB => exists n, solo once t a n s = UB
  | Abort => exists n, solo once t a n s = Abort
  | OutOfFuel => True
  end.
Proof.
  intros G NC. pose proof (rel_self s G) as RL. destruct a as [c b sz|b|p|x c]; cbn [rstep].
  - assert (E0 : cstep once (start t (RSet c b sz)) s = Ok (go_to (with_hdr s b (Some (sz, c))) t (PLoop (WSet b b)))) by reflexivity.
    unfold set_entry, rd_hdr. cbn [hdr regs]. rewrite zupd_same. cbn [rbind].
    assert (RL1 : Rel (go_to (with_hdr s b (Some (sz, c))) t (PLoop (WSet b b))) (mkR (regs (seen s)) (zupd (zupd (hdr (seen s)) b (Some (sz, 0))) b (Some (sz, c))))).
    { destruct RL as ((S1 & S2) & S3). split; [split; [exact S1|]|exact S3]. intros y. cbn. unfold zupd. destruct (y =? b); reflexivity. }
    pose proof (set_run once t (loop_fuel sz) b b _ _ RL1 (at_self t _ _)) as H. cbn [regs seen] in *. destruct (set_loop (loop_fuel sz) b b _) as [r'| | |]; cbn [rbind].
    + destruct H as (s' & H1 & H2 & H3). exact (over_done once t (RSet c b sz) s s' 0 r' Logic.I (goes_solo once t _ s _ _ E0 H1) H2 H3).
    + exact (goes_solo once t _ s _ _ E0 H).
    + exact (goes_solo once t _ s _ _ E0 H).
    + exact Logic.I.
  - set (s1 := go_to (with_live s (filter (fun '(y, _) => negb (y =? b)) (clive s))) t (PLoop (WUnset b b))). assert (E0 : cstep once (start t (RUnset b)) s = Ok s1) by reflexivity.
    assert (RL1 : Rel s1 (seen s)) by exact RL. unfold rd_hdr. cbn [hdr seen]. destruct (chdr s b) as [[sz c]|] eqn:HB; cbn [rbind].
    2: { apply (goes_solo once t _ s s1 UB E0). apply goes_ub. unfold cgo. unfold s1 at 1. rewrite at_self. unfold loop_test, s1. cbn [chdr go_to with_live]. rewrite HB. reflexivity. }
    pose proof (unset_run once t (loop_fuel sz) b b s1 (seen s) RL1 (at_self t _ _)) as H. unfold unset_entry. destruct (unset_loop (loop_fuel sz) b b (seen s)) as [r'| | |]; cbn [rbind].
    + destruct H as (s' & H1 & H2 & H3). exact (over_done once t (RUnset b) s s' 0 _ Logic.I (goes_solo once t _ s _ _ E0 H1) H2 H3).
    + exact (goes_solo once t _ s _ _ E0 H).
    + contradiction.
    + exact Logic.I.
  - assert (E0 : cstep once (start t (RFind p)) s = Ok (go_to s t (PGet (WFind p)))) by reflexivity.
    pose proof (find_run once t (go_to s t (PGet (WFind p))) (seen s) p RL (at_self t _ _)) as H. destruct (get_macro_bloc p (seen s)) as [[v r']| | |].
    + destruct H as (s' & H1 & (H2 & H4) & H3). destruct (goes_solo once t _ s _ _ E0 H1) as (n & E). exists n, s'. split; [exact E|]. split; [exact H3|]. split; [exact H2|]. split; [exact H4|].
      intros u N. exact (solo_other once t _ n s s' u E N).
    + exact (goes_solo once t _ s _ _ E0 H).
    + contradiction.
    + exact Logic.I.
  - specialize (NC x c eq_refl). unfold del_chain. destruct (id_range x) as [E|E]; rewrite E; cbn [rbind].
    2: { exists O. unfold solo. cbn [start cstep]. rewrite E. reflexivity. }
    cbn [regs seen]. destruct (cregs s (x / TB)) as [k|] eqn:C; cbn [option_map].
    + set (s1 := go_to (with_lock s true) t (PDel1 k 0 c)). destruct RL as ((S1 & S2) & G1 & G2 & G3 & G4).
      assert (E0 : cstep once (start t (RDel x c)) s = Ok s1) by (cbn [start cstep]; rewrite E; cbn [rbind]; rewrite C, G2; reflexivity).
      pose proof (del_run once t k c (Z.to_nat ENTRIES) NC 0 s1 (ctabs s k) ltac:(rewrite Z2Nat.id by (unfold ENTRIES; lia); lia) (at_self t _ _) (fun j => eq_refl)) as H.
      change (chdr s1) with (chdr s) in H. cbn [hdr seen]. destruct (del_loop (Z.to_nat ENTRIES) 0 c (chdr s) (ctabs s k)) as [e'| | |]; cbn [rbind]; [|exact (goes_solo once t _ s _ _ E0 H)|contradiction|contradiction].
      destruct H as (s' & K1 & K2 & K3 & K4 & K5 & K6 & K7 & K8 & K9). refine (over_done once t (RDel x c) s s' 0 _ Logic.I (goes_solo once t _ s _ _ E0 K1) _ K2). 
      split.
      * split; [|intros y; cbn; rewrite K5; reflexivity]. intros id. cbn. rewrite K3. change (cregs s1 id) with (cregs s id). destruct (Z.eq_dec id (x / TB)) as [->|N].
        -- rewrite C, zupd_same. cbn. exact K8.
        -- rewrite zupd_other by exact N. destruct (cregs s id) as [k'|] eqn:K; cbn; [|exact Logic.I]. intros i. rewrite K9; [reflexivity|]. intros ->. apply N. exact (G4 _ _ _ K C).
      * unfold good. rewrite K3, K4, K6, K7. split; [exact G1|]. split; [reflexivity|]. split; [exact G3|exact G4].
    + assert (E0 : cstep once (start t (RDel x c)) s = Ok (go_to s t PDone)) by (cbn [start cstep]; rewrite E; cbn [rbind]; rewrite C; reflexivity).
      exact (over_done once t (RDel x c) s _ 0 (seen s) Logic.I (goes_solo once t _ s _ _ E0 (goes_refl once t _)) RL (at_self t _ _)).
Qed.

(** Quiet states. *)
Lemma quiet_good once s : creach once s -> quiet s -> good s.
Proof.
  intros R Q. pose proof (creach_inv once s R) as I. split; [exact (v_ini _ _ I)|]. split; [|split; [exact (v_next _ _ I)|exact (v_inj _ _ I)]].
  destruct (clck s) eqn:C; [|reflexivity]. destruct (held_reach once s R C) as (t & H). specialize (Q t). destruct (cat s t); discriminate.
Qed.
(** The chains play no role in a lookup. *)
Definition ren (r : rst) : rst := mkR (regs r) (fun b => option_map (fun '(z, _) => (z, 1)) (hdr r b)).
Lemma ren_setup id r : setup id (ren r) = ren (setup id r).
Proof. unfold setup. cbn. destruct (regs r id); reflexivity. Qed.
Lemma ren_rd a r : rd_entry a (ren r) = rbind (rd_entry a r) (fun '(e, r1) => Ok (e, ren r1)).
Proof. unfold rd_entry. destruct (get_id a); cbn [rbind]; try reflexivity. rewrite ren_setup. cbn [regs ren]. destruct (regs (setup a0 r) a0); reflexivity. Qed.
Lemma ren_find p r : get_macro_bloc p (ren r) = rbind (get_macro_bloc p r) (fun '(v, r1) => Ok (v, ren r1)).
Proof.
  unfold get_macro_bloc. rewrite ren_rd. destruct (rd_entry p r) as [[e r1]| | |]; cbn [rbind]; try reflexivity. destruct (_ && _); [|reflexivity].
  rewrite ren_rd. destruct (rd_entry (p - MB2) r1) as [[e2 r2]| | |]; cbn [rbind]; try reflexivity. destruct (e2 =? 0); [reflexivity|]. destruct (e2 <? p); [|reflexivity].
  unfold rd_hdr. cbn [hdr ren]. destruct (hdr r2 e2) as [[z c]|]; cbn [rbind option_map]; [|reflexivity]. destruct (p <? add64 e2 z); reflexivity.
Qed.
Definition segs (l : list (Z * Z)) : list seg := map (fun '(b, z) => mkSeg b z 1) l.
Lemma in_segs x l : In x (segs l) <-> In (sb x, ss x) l /\ sc x = 1.
Proof.
  unfold segs. rewrite in_map_iff. split.
  - intros ([b z] & <- & H). split; [exact H|reflexivity].
  - intros (H & E). exists (sb x, ss x). split; [|exact H]. destruct x as [b z c]. cbn in *. subst c. reflexivity.
Qed.
Lemma tab_ent s k : 0 <= k -> tab (ren (seen s)) k = ent s (k * MB2).
Proof.
  intros H. unfold tab, ent, entry, slot. cbn [regs ren seen]. rewrite slot_region, slot_index, Z.div_mul by (unfold MB2; lia). destruct (cregs s (k / ENTRIES)); reflexivity.
Qed.
Lemma quiet_claim s b lo hi : quiet s -> claim s b lo hi -> exists sz, In (b, sz) (clive s) /\ lo = b /\ hi = b + sz.
Proof.
  intros Q [sz H|t a H|t a sz c H _].
  - exists sz. auto.
  - rewrite (rest_prog _ (Q t)) in H. discriminate.
  - rewrite (rest_prog _ (Q t)) in H. discriminate.
Qed.
Lemma quiet_inv once s : creach once s -> quiet s -> RInv (ren (seen s)) (segs (clive s)).
Proof.
  intros R Q. pose proof (creach_inv once s R) as I. constructor.
  - intros x Hx. apply in_segs in Hx as (Hx & E). rewrite E. split; [|discriminate]. destruct (v_live _ _ I _ _ Hx) as (c & HS). destruct (v_seg _ _ I _ _ _ HS) as (S1 & S2 & S3 & S4 & _).
    split; [exact S1|]. split; [exact S2|]. split; [exact S3|exact S4].
  - intros x y Hx Hy. apply in_segs in Hx as (Hx & Ex). apply in_segs in Hy as (Hy & Ey). destruct (Z.eq_dec (sb x) (sb y)) as [E|N].
    + left. pose proof (live_uniq once s I (sb x) (ss x) (ss y) Hx) as U. rewrite E in U. specialize (U Hy). destruct x, y; cbn in *; subst; reflexivity.
    + right. destruct (v_live _ _ I _ _ Hx) as (c & HS). destruct (v_live _ _ I _ _ Hy) as (c' & HS'). exact (v_apart _ _ I _ _ _ _ _ _ HS HS' N).
  - intros x Hx. apply in_segs in Hx as (Hx & E). rewrite E. destruct (v_live _ _ I _ _ Hx) as (c & HS). cbn. rewrite HS. reflexivity.
  - intros k Hk Z0 x Hx (C1 & C2). apply in_segs in Hx as (Hx & _). rewrite (tab_ent s k (proj1 Hk)) in Z0. destruct (v_live _ _ I _ _ Hx) as (c & HS). destruct (v_seg _ _ I _ _ _ HS) as (S1 & S2 & S3 & S4 & _).
    set (a := sb x + (k - sb x / MB2) * MB2). assert (A : sb x <= a < sb x + ss x /\ (a - sb x) mod MB2 = 0 /\ a / MB2 = k) by (unfold a; clear - C1 C2 S3 S4; mb; lia). destruct A as (A1 & A2 & A3).
    pose proof (v_claim _ _ I (sb x) (sb x) (sb x + ss x) a (cl_live s (sb x) (ss x) Hx) A1 A2) as EN. rewrite (ent_slot s a (k * MB2)) in EN; [lia|]. rewrite A3. symmetry. apply Z.div_mul. unfold MB2. lia.
  - intros k Hk Z0. rewrite (tab_ent s k (proj1 Hk)) in *. destruct (v_ent _ _ I _ Z0) as (lo & hi & a' & C & A1 & A2 & A3). destruct (quiet_claim s _ _ _ Q C) as (sz & HL & -> & ->).
    exists (mkSeg (ent s (k * MB2)) sz 1). split; [apply in_segs; split; [exact HL|reflexivity]|]. split; [reflexivity|]. unfold cov. cbn [sb ss]. rewrite Z.div_mul in A3 by (unfold MB2; lia).
    destruct (v_live _ _ I _ _ HL) as (c & HS). destruct (v_seg _ _ I _ _ _ HS) as (S1 & S2 & S3 & S4 & _). clear - A1 A2 A3 S3 S4. mb. lia.
Qed.
Lemma quiet_find once s t p : creach once s -> quiet s -> 0 <= p < 2 ^ 48 -> exists n s' r, solo once t (RFind p) n s = Ok s' /\ cat s' t = PFound p r /\ quiet s' /\
  ((exists sz, In (r, sz) (clive s) /\ r <= p < r + sz) \/ (r = 0 /\ forall b sz, In (b, sz) (clive s) -> ~ b <= p < b + sz)).
Proof.
  intros R Q Hp. destruct (find_ok _ _ p (quiet_inv once s R Q) Hp) as (r & s0 & F & _ & _ & H). rewrite ren_find in F. pose proof (solo_ok once t (RFind p) s (quiet_good once s R Q)) as S.
  cbn [rstep] in S. destruct (get_macro_bloc p (seen s)) as [[v r1]| | |]; cbn [rbind] in F; try discriminate. injection F as -> _.
  destruct (S ltac:(discriminate)) as (n & s' & E & P & _ & _ & O). exists n, s', r. split; [exact E|]. split; [exact P|]. split.
  - intros u. destruct (Nat.eq_dec u t) as [->|N]; [rewrite P; reflexivity|rewrite (O u N); apply Q].
  - destruct H as [(x & Hx & Hi & ->)|(-> & H)]; [left|right].
    + apply in_segs in Hx as (Hx & _). exists (ss x). split; [exact Hx|exact Hi].
    + split; [reflexivity|]. intros b sz HL. apply (H (mkSeg b sz 1)). apply in_segs. split; [exact HL|reflexivity].
Qed.
