(** Execution of concrete histories, to exhibit reachable states. *)
From Verif Require Import Word Res Mem SizeClassModel ChainModel ChainSpec.
From Coq Require Import ZArith List Bool Lia.
Import ListNotations.
Open Scope Z_scope.

Definition apartb (x y : Z * Z) : bool := (fst x + snd x <=? fst y) || (fst y + snd y <=? fst x).
Definition new_rangeb (g : cfg) (o : obs) (b z : Z) : bool :=
  (0 <? b) && (b + z <=? 2 ^ 56) && (b mod 8 =? 0) && (z mod 16 =? 0) && (80 <? z) &&
  forallb (apartb (b, z)) ((cpool g, POOL_SIZE) :: segs o).
Definition pow2b (d : Z) : bool := (d =? 0) || ((0 <? d) && (d =? 2 ^ Z.log2 d)).
Definition request_okb (g : cfg) (o : obs) (d n : Z) (gr : option Z) : bool :=
  (0 <=? n) && pow2b d && (n + d <? 2 ^ 63 - 64) &&
  (negb (csrc g) || ((asked d n <=? 1048576 - 16) || ((asked d n + 47) mod 2097152 <? 2097152 - 16))) &&
  (negb (csrc g) || match gr with None => true | Some b => new_rangeb g o b (ask_size d n) end).
Definition has (p : Z) (l : list blk) : bool := existsb (fun b => bp b =? p) l.
Definition validb (g : cfg) (s : st) (o : obs) (c : op) : bool :=
  match c with
  | OAlloc d n gr => request_okb g o d n gr
  | OFree p => (p =? 0) || has p (live o)
  | ORealloc h p n gr =>
      ((p =? 0) || existsb (fun b => (bp b =? p) && (bd b <=? 1)) (live o)) && request_okb g o h n gr && (0 <? cfactor g)
  | ORefill b z => negb (csrc g) && (((b =? 0) && (z =? 0)) || new_rangeb g o b z)
  | OWrite x v =>
      existsb (fun b => match usable_size (bp b) s with Ok (u, _) => (bp b <=? x) && (x <? bp b + u) | _ => false end) (live o)
  | ORemote p => has p (live o)
  | OPurge => true
  | OStore _ => false
  end.

Lemma apartb_ok x y : apartb x y = true -> apart x y.
Proof. unfold apartb, apart. lia. Qed.
Lemma new_rangeb_ok g o b z : new_rangeb g o b z = true -> new_range g o b z.
Proof.
  unfold new_rangeb, new_range. rewrite !andb_true_iff, forallb_forall. intros (((((H1 & H2) & H3) & H4) & H5) & H6).
  repeat split; try lia. intros r Hr. apply apartb_ok. auto.
Qed.
Lemma pow2b_ok d : pow2b d = true -> d = 0 \/ exists k, 0 <= k /\ d = 2 ^ k.
Proof.
  unfold pow2b. rewrite orb_true_iff, andb_true_iff, !Z.eqb_eq. intros [H|(H1 & H2)]; [left; exact H|right].
  exists (Z.log2 d). split; [apply Z.log2_nonneg|exact H2].
Qed.
Lemma request_okb_ok g o d n gr : request_okb g o d n gr = true -> request_ok g o d n gr.
Proof.
  unfold request_okb, request_ok. rewrite !andb_true_iff. intros ((((H1 & H2) & H3) & H4) & H5). split; [lia|]. split; [apply pow2b_ok; exact H2|].
  split; [lia|]. split.
  - intros Hc HH. rewrite Hc in H4. cbn [negb orb] in H4. unfold huge in HH. clear - HH H4. lia.
  - intros Hc b ->. rewrite Hc in H5. cbn [negb orb] in H5. apply new_rangeb_ok. exact H5.
Qed.
Lemma has_ok p l : has p l = true -> exists n d, In (mkBlk p n d) l.
Proof. unfold has. rewrite existsb_exists. intros ([q n d] & H1 & H2). cbn in H2. apply Z.eqb_eq in H2. subst q. eauto. Qed.
Lemma validb_ok g s o c : validb g s o c = true -> valid g s o c.
Proof.
  destruct c as [d n gr|p|h p n gr|b z|x v|p| |m]; cbn [validb valid].
  - apply request_okb_ok.
  - rewrite orb_true_iff, Z.eqb_eq. intros [H|H]; [left; exact H|right; apply has_ok; exact H].
  - rewrite !andb_true_iff, orb_true_iff, Z.eqb_eq, existsb_exists. intros (([H|([q m d] & H1 & H2)] & H3) & H4).
    + split; [left; exact H|]. split; [apply request_okb_ok; exact H3|lia].
    + split; [right; exists m, d; cbn in H2; split; [replace p with q by lia; exact H1|lia]|]. split; [apply request_okb_ok; exact H3|lia].
  - rewrite andb_true_iff, orb_true_iff, andb_true_iff. intros (H1 & H2). split; [destruct (csrc g); [discriminate|reflexivity]|].
    destruct H2 as [H2|H2]; [left; lia|right; apply new_rangeb_ok; exact H2].
  - rewrite existsb_exists. intros ([q n d] & H1 & H2). cbn [bp] in H2. destruct (usable_size q s) as [[u s']| | |] eqn:E; try discriminate.
    exists q, n, d, u, s'. split; [exact H1|]. split; [exact E|]. lia.
  - apply has_ok.
  - intros _. exact I.
  - discriminate.
Qed.

Definition wf_cfgb (g : cfg) : bool := (0 <? cpool g) && (cpool g + POOL_SIZE <=? 2 ^ 56).
(** All results, latest first. *)
Fixpoint run_from (fuel : nat) (g : cfg) (s : st) (o : obs) (cs : list op) (rs : list Z) : option (list Z * st * obs) :=
  match cs with
  | [] => Some (rs, s, o)
  | c :: cs' =>
      if validb g s o c then
        match step fuel g c s with
        | Ok (r, s') => run_from fuel g s' (next o c r (sevs s')) cs' (r :: rs)
        | _ => None
        end
      else None
  end.
Definition run (fuel : nat) (g : cfg) (cs : list op) : option (list Z * st * obs) :=
  if wf_cfgb g then
    match base_init g (init_state g (fun _ => 0)) with
    | Ok (tt, s) => run_from fuel g s (mkObs [] [] []) cs []
    | _ => None
    end
  else None.
Lemma run_from_reach fuel g cs : forall s o rs0 rs s' o', reach g s o -> run_from fuel g s o cs rs0 = Some (rs, s', o') -> reach g s' o'.
Proof.
  induction cs as [|c cs IH]; intros s o rs0 rs s' o' R H; cbn [run_from] in H.
  - injection H as _ <- <-. exact R.
  - destruct (validb g s o c) eqn:V; [|discriminate]. destruct (step fuel g c s) as [[r s1]| | |] eqn:E; try discriminate.
    eapply IH; [|exact H]. eapply reach_step; [exact R|apply validb_ok; exact V|exact E].
Qed.
Lemma run_reach fuel g cs rs s o : run fuel g cs = Some (rs, s, o) -> reach g s o.
Proof.
  unfold run. destruct (wf_cfgb g) eqn:WF; [|discriminate]. destruct (base_init g (init_state g (fun _ => 0))) as [[[] s0]| | |] eqn:E; try discriminate.
  intros H. eapply run_from_reach; [|exact H]. eapply reach_init; [|exact E]. unfold wf_cfgb in WF. unfold wf_cfg. lia.
Qed.

(** A history that ends in a state satisfying a test. *)
Definition check (fuel : nat) (g : cfg) (cs : list op) (P : list Z -> st -> obs -> bool) : bool :=
  match run fuel g cs with Some (rs, s, o) => P rs s o | None => false end.
Lemma check_reach fuel g cs P : check fuel g cs P = true -> exists rs s o, reach g s o /\ P rs s o = true.
Proof.
  unfold check. destruct (run fuel g cs) as [[[rs s] o]|] eqn:E; [|discriminate]. intros H. exists rs, s, o. split; [eapply run_reach; exact E|exact H].
Qed.

(** Chains used by the examples: a user chain, and a chain with a memory source. *)
Definition gu : cfg := mkCfg 65536 true false false false 2 52428800.
Definition gs : cfg := mkCfg 65536 true true true false 2 52428800.
Definition MB2 : Z := 2097152.

(** Final state of a history, and facts about it computed by the kernel. *)
Definition st_nil : st := mkSt (fun _ => 0) [] 0 0 0 0 0 [].
Definition fin_s fuel g cs : st := match run fuel g cs with Some (_, s, _) => s | None => st_nil end.
Definition fin_o fuel g cs : obs := match run fuel g cs with Some (_, _, o) => o | None => mkObs [] [] [] end.
Definition runs fuel g cs : bool := match run fuel g cs with Some _ => true | None => false end.
Lemma fin_reach fuel g cs : runs fuel g cs = true -> reach g (fin_s fuel g cs) (fin_o fuel g cs).
Proof.
  unfold runs, fin_s, fin_o. destruct (run fuel g cs) as [[[rs s] o]|] eqn:E; [|discriminate]. intros _. eapply run_reach. exact E.
Qed.

Definition size_at (s : st) (p : Z) : Z := match usable_size p s with Ok (u, _) => u | _ => -1 end.
Lemma get_chunk_st' p s v s' : get_chunk p s = Ok (v, s') -> s' = s.
Proof.
  unfold get_chunk. destruct (p =? 0); [intros E; injection E; auto|]. cbv zeta. unfold get_magic, get_type, bind, loadn, ret.
  destruct (accb _ _ _) eqn:EA; [|discriminate]. cbn [rbind]. destruct (negb _); [intros E; injection E; auto|].
  rewrite EA. cbn [rbind]. unfold assume. destruct (_ || _); [|discriminate]. cbn. intros E; injection E; auto.
Qed.
Lemma load_st a n s v s' : loadn a n s = Ok (v, s') -> s' = s.
Proof. unfold loadn. destruct (accb _ _ _); [|discriminate]. intros E; injection E; auto. Qed.
Lemma bind_inv {A B} (x : M A) (f : A -> M B) s b s' : bind x f s = Ok (b, s') -> exists a s1, x s = Ok (a, s1) /\ f a s1 = Ok (b, s').
Proof. unfold bind. destruct (x s) as [[a s1]| | |]; try discriminate. cbn. eauto. Qed.
Lemma usable_at s p u : size_at s p = u -> 0 <= u -> usable s p u.
Proof.
  unfold size_at, usable. destruct (usable_size p s) as [[v s1]| | |] eqn:E; [|lia|lia|lia]. intros -> Hu. f_equal. f_equal.
  unfold usable_size in E. destruct (p =? 0); [injection E; auto|]. apply bind_inv in E as (c & s2 & E1 & E2).
  unfold get_chunk_unpadded in E1. apply bind_inv in E1 as (c1 & s3 & E1 & E3). apply get_chunk_st' in E1. subst s3.
  assert (s2 = s) as ->.
  { unfold unpad_vchunk in E3. destruct (c1 =? 0); [injection E3; auto|]. unfold get_type in E3. apply bind_inv in E3 as (t & s4 & E4 & E5).
    apply bind_inv in E4 as (b & s5 & E4 & E6). apply load_st in E4. subst s5. injection E6 as _ <-. destruct (t =? T_PADDED).
    - unfold get_padding in E5. apply bind_inv in E5 as (pd & s6 & E6 & E7). apply load_st in E6. subst s6. apply get_chunk_st' in E7. exact E7.
    - injection E5; auto. }
  destruct (c =? 0); [discriminate|]. unfold vsize, get_size in E2. apply bind_inv in E2 as (sz & s4 & E4 & E5). apply load_st in E4. subst s4.
  injection E5; auto.
Qed.

Definition result fuel g c s : Z := match step fuel g c s with Ok (r, _) => r | _ => -1 end.
Definition after fuel g c s : st := match step fuel g c s with Ok (_, s') => s' | _ => st_nil end.
Lemma step_at fuel g c s r : result fuel g c s = r -> 0 <= r -> step fuel g c s = Ok (r, after fuel g c s).
Proof. unfold result, after. destruct (step fuel g c s) as [[r' s']| | |]; lia || (intros -> _; reflexivity). Qed.

(** ** Histories of the examples *)
(** A user chain with one buffer of 4096 bytes: blocks of 100, 200 (aligned on 64) and 10 bytes, one byte written. *)
Definition hu : list op := [ORefill 1048576 4096; OAlloc 0 100 None; OAlloc 64 200 None; OAlloc 0 10 None; OWrite 1048700 7].
Definition SU : st := fin_s 200 gu hu.
Definition OU : obs := fin_o 200 gu hu.
Lemma reach_U : reach gu SU OU.
Proof. apply fin_reach. vm_compute. reflexivity. Qed.
(** The same after everything was freed, in another order. *)
Definition he : list op := hu ++ [OFree 1048624; ORemote 1049040; OFree 1048768; OPurge].
Definition SE : st := fin_s 200 gu he.
Definition OE : obs := fin_o 200 gu he.
Lemma reach_E : reach gu SE OE.
Proof. apply fin_reach. vm_compute. reflexivity. Qed.
(** Blocks with one free gap between them, and one block freed remotely. *)
Definition hg : list op := hu ++ [OFree 1048768; ORemote 1049040].
Definition SG : st := fin_s 200 gu hg.
Definition OG : obs := fin_o 200 gu hg.
Lemma reach_G : reach gu SG OG.
Proof. apply fin_reach. vm_compute. reflexivity. Qed.
(** A chain with a source: a small block in a segment of 2 MB, a huge one of 6 MB in its own segment. *)
Definition hs : list op := [OAlloc 0 100 (Some (4 * MB2)); OAlloc 0 (3 * MB2) (Some (8 * MB2)); OAlloc 0 1048560 (Some (16 * MB2))].
Definition SS : st := fin_s 200 gs hs.
Definition OS : obs := fin_o 200 gs hs.
Lemma reach_S : reach gs SS OS.
Proof. apply fin_reach. vm_compute. reflexivity. Qed.
(** Two buffers, one block in the second one. *)
Definition h19 : list op := [ORefill 1048576 4096; ORefill 1056768 8192; OAlloc 0 5000 None].
(** Three neighbours, the last two freed (and merged), then a block over both. *)
Definition h16 : list op := [ORefill 1048576 4096; OAlloc 0 100 None; OAlloc 0 100 None; OAlloc 0 100 None; OAlloc 0 100 None;
  OFree 1048752; OFree 1048880; OAlloc 0 230 None].
Definition S16 : st := fin_s 200 gu h16.
Definition O16 : obs := fin_o 200 gu h16.
Lemma reach_16 : reach gu S16 O16.
Proof. apply fin_reach. vm_compute. reflexivity. Qed.
