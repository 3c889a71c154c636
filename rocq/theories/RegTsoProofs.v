(** Invariant of the registry with store buffers, for C83. *)
From Verif Require Import Word Res RegionModel RegConcModel RegTsoModel RegTsoSpec.
From Coq Require Import ZArith List Bool Lia Arith.
Import ListNotations.
Open Scope Z_scope.

(** ** Addresses. *)
Definition okseg (b sz : Z) : Prop := 4194304 <= b /\ b + sz <= 2 ^ 48 /\ 0 < sz /\ b mod 2097152 = 0 /\ sz mod 2097152 = 0.
Lemma key x y : 0 <= x -> 0 <= y -> x / TB = y / TB -> slot x = slot y -> x / MB2 = y / MB2.
Proof. unfold slot, TB, MB2. intros. lia. Qed.
Lemma blk x y : 0 <= y -> y mod MB2 = 0 -> y <= x < y + MB2 -> x / TB = y / TB /\ slot x = slot y.
Proof. unfold slot, TB, MB2. intros. lia. Qed.
Lemma seg_blk b sz x y : okseg b sz -> b <= x < b + sz -> x / MB2 = y / MB2 -> b <= y < b + sz.
Proof. unfold okseg, MB2. intros. lia. Qed.
Lemma id_ok b sz a : okseg b sz -> b <= a < b + sz -> get_id a = Ok (a / TB).
Proof.
  intros (A & B & _) C. unfold get_id. replace ((0 <=? a / TB) && (a / TB <? MAXREG)) with true; [reflexivity|].
  symmetry. apply andb_true_iff. unfold TB, MAXREG. change (2 ^ 48) with 281474976710656 in B. lia.
Qed.
Lemma next_blk b sz a : okseg b sz -> a mod MB2 = 0 -> b <= a < b + sz -> add64 a MB2 = a + MB2 /\ (a + MB2) mod MB2 = 0 /\ a + MB2 <= b + sz.
Proof.
  intros (A & B & C & D & E) F G. change (2 ^ 48) with 281474976710656 in B. unfold MB2 in *.
  split; [apply add64_small; pose proof W64_val; lia|]. lia.
Qed.
Lemma end_ok b sz : okseg b sz -> add64 b sz = b + sz.
Proof. intros (A & B & C & _). change (2 ^ 48) with 281474976710656 in B. apply add64_small. pose proof W64_val. lia. Qed.

(** ** Stores about a segment, and what a thread sees of it. *)
Definition about (own : Z -> option nat) (b sz : Z) (w : wr) : Prop :=
  match w with
  | WEnt r i _ => exists a, b <= a < b + sz /\ own (a / TB) = Some r /\ slot a = i
  | WHdr y _ _ => y = b
  | _ => False
  end.
Definition agree (own : Z -> option nat) (m : rmem) : Prop := forall id r, m_regs m id = Some r -> own id = Some r.
Definition fullr (m : rmem) (b lo hi : Z) : Prop := forall a, lo <= a < hi -> exists r, m_regs m (a / TB) = Some r /\ m_tabs m r (slot a) = b.
Definition zeror (own : Z -> option nat) (m : rmem) (lo hi : Z) : Prop := forall a r, lo <= a < hi -> own (a / TB) = Some r -> m_tabs m r (slot a) = 0.
Definition full (m : rmem) (b sz c : Z) : Prop := m_hdr m b = (sz, c) /\ fullr m b b (b + sz).
(** [m'] shows the segment as [m] does. *)
Definition same (own : Z -> option nat) (b sz : Z) (m m' : rmem) : Prop :=
  m_hdr m b = m_hdr m' b /\ (forall a r, b <= a < b + sz -> m_regs m (a / TB) = Some r -> m_regs m' (a / TB) = Some r) /\
  (forall a r, b <= a < b + sz -> own (a / TB) = Some r -> m_tabs m r (slot a) = m_tabs m' r (slot a)).

Lemma zupd_at {A} (f : Z -> A) x v : zupd f x v x = v.
Proof. unfold zupd. rewrite Z.eqb_refl. reflexivity. Qed.
Lemma zupd_ne {A} (f : Z -> A) x v y : y <> x -> zupd f x v y = f y.
Proof. intros N. unfold zupd. destruct (Z.eqb_spec y x); [contradiction|reflexivity]. Qed.
Lemma fupd_at {A} (f : nat -> A) x v : fupd f x v x = v.
Proof. unfold fupd. rewrite Nat.eqb_refl. reflexivity. Qed.
Lemma fupd_ne {A} (f : nat -> A) x v y : y <> x -> fupd f x v y = f y.
Proof. intros N. unfold fupd. destruct (Nat.eqb_spec y x); [contradiction|reflexivity]. Qed.
Lemma tab_at m r i v : m_tabs (apply m (WEnt r i v)) r i = v.
Proof. cbn. rewrite fupd_at, zupd_at. reflexivity. Qed.
Lemma tab_ne m r i v r' i' : ~ (r' = r /\ i' = i) -> m_tabs (apply m (WEnt r i v)) r' i' = m_tabs m r' i'.
Proof.
  intros N. cbn. destruct (Nat.eq_dec r' r) as [->|R]; [|rewrite fupd_ne by exact R; reflexivity].
  rewrite fupd_at. apply zupd_ne. intros ->. apply N. split; reflexivity.
Qed.

Lemma same_refl own b sz m : same own b sz m m.
Proof. split; [reflexivity|]. split; auto. Qed.
Lemma same_apply own b sz m w : ~ about own b sz w -> (forall id r, w = WReg id r -> m_regs m id = None) -> same own b sz m (apply m w).
Proof.
  intros N F. destruct w as [id r|r i v|y z c| |y u]; try apply same_refl.
  - split; [reflexivity|]. split; [|reflexivity]. intros a r' _ H. cbn. destruct (Z.eq_dec (a / TB) id) as [E|E].
    + subst id. rewrite (F _ _ eq_refl) in H. discriminate.
    + rewrite zupd_ne by exact E. exact H.
  - split; [reflexivity|]. split; [auto|]. intros a r' A O. symmetry. apply tab_ne. intros (-> & K). apply N. exists a. auto.
  - split; [|split; [auto|reflexivity]]. cbn. symmetry. apply zupd_ne. intros E. apply N. symmetry. exact E.
Qed.
Lemma same_both own b sz m m' w : same own b sz m m' -> same own b sz (apply m w) (apply m' w).
Proof.
  intros (A & B & C). destruct w as [id r|r i v|y z c| |y u]; try (split; [exact A|split; assumption]).
  - split; [exact A|]. split; [|exact C]. intros a r' K. cbn. unfold zupd. destruct (a / TB =? id); [auto|apply B; exact K].
  - split; [exact A|]. split; [exact B|]. intros a r' K O. destruct (Nat.eq_dec r' r) as [->|R]; [destruct (Z.eq_dec (slot a) i) as [E|E]|].
    + rewrite E, !tab_at. reflexivity.
    + rewrite !tab_ne by tauto. apply C; assumption.
    + rewrite !tab_ne by tauto. apply C; assumption.
  - split; [|split; assumption]. cbn. unfold zupd. destruct (b =? y); [reflexivity|exact A].
Qed.
Lemma same_fold own b sz l : forall m m', same own b sz m m' -> same own b sz (fold_left apply l m) (fold_left apply l m').
Proof. induction l as [|w l IH]; intros m m' S; [exact S|]. cbn. apply IH, same_both, S. Qed.

Lemma fullr_same own b sz m m' y lo hi : agree own m -> same own b sz m m' -> b <= lo -> hi <= b + sz -> fullr m y lo hi -> fullr m' y lo hi.
Proof.
  intros G (_ & B & C) L H F a A. destruct (F a A) as (r & R & T). exists r. split; [apply B; [lia|exact R]|].
  rewrite <- C; [exact T|lia|apply G; exact R].
Qed.
Lemma zeror_same own b sz m m' lo hi : same own b sz m m' -> b <= lo -> hi <= b + sz -> zeror own m lo hi -> zeror own m' lo hi.
Proof. intros (_ & _ & C) L H F a r A O. rewrite <- (C a r); [apply F; assumption|lia|exact O]. Qed.
Lemma full_same own b sz c m m' : agree own m -> same own b sz m m' -> full m b sz c -> full m' b sz c.
Proof.
  intros G S (A & F). split; [rewrite <- (proj1 S); exact A|]. apply (fullr_same own b sz m); [exact G|exact S|lia|lia|exact F].
Qed.

Lemma agree_apply own m w : agree own m -> (forall id r, w = WReg id r -> own id = Some r) -> agree own (apply m w).
Proof.
  intros G F. destruct w as [id r|r i v|y z c| |y u]; try exact G. intros j q. cbn. unfold zupd.
  destruct (Z.eqb_spec j id) as [->|N]; [intros E; injection E as <-; apply (F _ _ eq_refl)|apply G].
Qed.
Lemma agree_fold own l : forall m, agree own m -> (forall id r, In (WReg id r) l -> own id = Some r) -> agree own (fold_left apply l m).
Proof.
  induction l as [|w l IH]; intros m G F; [exact G|]. cbn. apply IH; [|intros; apply F; right; assumption].
  apply agree_apply; [exact G|]. intros id r ->. apply F. left. reflexivity.
Qed.

(** ** The invariant.  [own]: the header of each region; [hand]: the thread whose stores about a segment may be waiting. *)
Definition inside (q : spot) : Prop := match q with QLook _ | QMap _ | QUnlock _ _ => True | _ => False end.
Definition crit (s : xst) (u : nat) : Prop := inside (x_at s u) \/ In WFree (x_buf s u).
Definition quiet (own : Z -> option nat) (s : xst) (b sz : Z) : Prop := forall u w, In w (x_buf s u) -> ~ about own b sz w.
Definition hidden (s : xst) (b : Z) : Prop := (forall u, ~ In (u, b) (x_know s)) /\ forall u v, ~ In (WGive b v) (x_buf s u).
Definition calm (w : wr) : Prop := w <> WFree /\ forall id r, w <> WReg id r.

Definition workok (own : Z -> option nat) (hand : Z -> nat) (s : xst) (u : nat) (w : work) : Prop :=
  match w with
  | WSet b a => exists sz c, In (b, sz, c) (x_map s) /\ hand b = u /\ hidden s b /\ a mod MB2 = 0 /\ b <= a <= b + sz /\
      m_hdr (view s u) b = (sz, c) /\ fullr (view s u) b b a /\ zeror own (view s u) a (b + sz)
  | WUnset b a => exists sz c, In (b, sz, c) (x_map s) /\ hand b = u /\ hidden s b /\ a mod MB2 = 0 /\ b <= a <= b + sz /\
      m_hdr (view s u) b = (sz, c) /\ zeror own (view s u) b a /\ fullr (view s u) b a (b + sz)
  | WFind p => exists b sz c, In (u, b) (x_know s) /\ In (b, sz, c) (x_map s) /\ b <= p < b + sz
  | WBack _ => False
  end.
(** The loop is not at its end. *)
Definition below (s : xst) (w : work) : Prop :=
  match w with
  | WSet b a | WUnset b a => exists sz c, In (b, sz, c) (x_map s) /\ b <= a < b + sz
  | WFind _ => True
  | WBack _ => False
  end.
Definition stores (w : work) : Prop := match w with WSet _ _ | WUnset _ _ => True | _ => False end.
Definition atok (own : Z -> option nat) (hand : Z -> nat) (s : xst) (u : nat) (q : spot) : Prop :=
  match q with
  | QIdle | QDone | QFound _ _ _ => True
  | QLoop w => stores w /\ workok own hand s u w
  | QGet w => workok own hand s u w /\ below s w
  | QLock w | QLook w => stores w /\ workok own hand s u w /\ below s w
  | QMap w => stores w /\ workok own hand s u w /\ below s w /\ own (target w / TB) = None
  | QUnlock w r | QWrite w r => stores w /\ workok own hand s u w /\ below s w /\ m_regs (view s u) (target w / TB) = Some r
  | QRead w r => workok own hand s u w /\ below s w /\ m_regs (view s u) (target w / TB) = Some r
  | QSize _ _ => False
  | QChain p b => exists sz c, In (u, b) (x_know s) /\ In (b, sz, c) (x_map s) /\ b <= p < b + sz
  | QBack b => exists sz c, In (b, sz, c) (x_map s) /\ workok own hand s u (WUnset b (b + sz))
  end.

Record Inv (own : Z -> option nat) (hand : Z -> nat) (s : xst) : Prop := mkInv {
  i_agree : agree own (x_m s);
  i_reg : forall u id r, In (WReg id r) (x_buf s u) -> own id = Some r /\ m_regs (x_m s) id = None /\ crit s u;
  i_own : forall id r, own id = Some r -> (r < x_next s)%nat /\ (m_regs (x_m s) id = Some r \/ exists u, In (WReg id r) (x_buf s u));
  i_inj : forall id id' r, own id = Some r -> own id' = Some r -> id = id';
  i_lock : forall u, crit s u -> x_lck s = true;
  i_one : forall u v, crit s u -> crit s v -> u = v;
  i_in : forall u, inside (x_at s u) -> ~ In WFree (x_buf s u);
  i_free : forall u l1 l2, x_buf s u = l1 ++ WFree :: l2 -> Forall calm l2;
  i_once : forall u l1 l2 id r, x_buf s u = l1 ++ WReg id r :: l2 -> forall r', ~ In (WReg id r') l2;
  i_map : forall b sz c, In (b, sz, c) (x_map s) -> okseg b sz;
  i_apart : forall b sz c b' sz' c', In (b, sz, c) (x_map s) -> In (b', sz', c') (x_map s) -> (b, sz, c) = (b', sz', c') \/ b + sz <= b' \/ b' + sz' <= b;
  i_ent : forall u r i v, In (WEnt r i v) (x_buf s u) -> exists b sz c, In (b, sz, c) (x_map s) /\ hand b = u /\ about own b sz (WEnt r i v);
  i_hdr : forall u b sz c, In (WHdr b sz c) (x_buf s u) -> hand b = u /\ exists sz' c', In (b, sz', c') (x_map s);
  i_zero : forall r i, m_tabs (x_m s) r i <> 0 -> exists b sz c, In (b, sz, c) (x_map s) /\ about own b sz (WEnt r i 0);
  i_know : forall t b, In (t, b) (x_know s) -> exists sz c, In (b, sz, c) (x_map s) /\ full (view s t) b sz c /\ (t = hand b \/ quiet own s b sz);
  i_give : forall u b v l1 l2, x_buf s u = l1 ++ WGive b v :: l2 -> exists sz c, In (b, sz, c) (x_map s) /\ full (fold_left apply l1 (x_m s)) b sz c /\
      Forall (fun w => ~ about own b sz w) l2 /\ (u = hand b \/ quiet own s b sz);
  i_at : forall u, atok own hand s u (x_at s u) }.

Section Facts.
Variables (own : Z -> option nat) (hand : Z -> nat) (s : xst).
Hypothesis I : Inv own hand s.

Lemma map_one b sz c sz' c' : In (b, sz, c) (x_map s) -> In (b, sz', c') (x_map s) -> sz = sz' /\ c = c'.
Proof.
  intros A B. destruct (i_apart _ _ _ I _ _ _ _ _ _ A B) as [E|[E|E]].
  - injection E as -> ->. auto.
  - destruct (i_map _ _ _ I _ _ _ A) as (_ & _ & P & _). lia.
  - destruct (i_map _ _ _ I _ _ _ B) as (_ & _ & P & _). lia.
Qed.
Lemma ent_one b sz c b' sz' c' r i v v' : In (b, sz, c) (x_map s) -> In (b', sz', c') (x_map s) ->
  about own b sz (WEnt r i v) -> about own b' sz' (WEnt r i v') -> b = b'.
Proof.
  intros A B (x & X & OX & KX) (y & Y & OY & KY). pose proof (i_inj _ _ _ I _ _ _ OX OY) as T.
  pose proof (i_map _ _ _ I _ _ _ A) as GA. pose proof (i_map _ _ _ I _ _ _ B) as GB.
  assert (K : x / MB2 = y / MB2) by (apply key; [destruct GA as (Q & _); clear - Q X; lia|destruct GB as (Q & _); clear - Q Y; lia|exact T|rewrite KX, KY; reflexivity]).
  pose proof (seg_blk _ _ _ _ GA X K) as Y'. destruct (i_apart _ _ _ I _ _ _ _ _ _ A B) as [E|[E|E]]; [injection E; auto|clear - E Y Y'; lia|clear - E Y Y'; lia].
Qed.
Lemma view_agree t : agree own (view s t).
Proof. apply agree_fold; [exact (i_agree _ _ _ I)|]. intros id r H. apply (i_reg _ _ _ I _ _ _ H). Qed.
Lemma other_not_about t b sz c w : In (b, sz, c) (x_map s) -> t <> hand b -> In w (x_buf s t) -> ~ about own b sz w.
Proof.
  intros M N H A. destruct w as [id r|r i v|y z d| |y u]; try exact A.
  - destruct (i_ent _ _ _ I _ _ _ _ H) as (b' & sz' & c' & M' & HD & A'). rewrite (ent_one _ _ _ _ _ _ _ _ _ _ M M' A A') in N. congruence.
  - cbn in A. subst y. destruct (i_hdr _ _ _ I _ _ _ _ H) as (HD & _). congruence.
Qed.
Lemma pend_lt u r i v : In (WEnt r i v) (x_buf s u) -> (r < x_next s)%nat.
Proof. intros H. destruct (i_ent _ _ _ I _ _ _ _ H) as (b & sz & c & _ & _ & (a & _ & O & _)). apply (i_own _ _ _ I _ _ O). Qed.
Lemma tab_keep l : forall m r i, (forall v, ~ In (WEnt r i v) l) -> m_tabs (fold_left apply l m) r i = m_tabs m r i.
Proof.
  induction l as [|w l IH]; intros m r i N; [reflexivity|]. cbn. rewrite IH by (intros v K; apply (N v); right; exact K).
  destruct w as [id q|q j v|y z d| |y u]; try reflexivity. apply tab_ne. intros (-> & ->). apply (N v). left. reflexivity.
Qed.
Lemma fresh_zero t r i : (x_next s <= r)%nat -> m_tabs (view s t) r i = 0.
Proof.
  intros L. unfold view. rewrite tab_keep; [|intros v H; pose proof (pend_lt _ _ _ _ H); lia].
  destruct (Z.eq_dec (m_tabs (x_m s) r i) 0) as [E|E]; [exact E|]. destruct (i_zero _ _ _ I _ _ E) as (b & sz & c & _ & (a & _ & O & _)).
  pose proof (proj1 (i_own _ _ _ I _ _ O)). lia.
Qed.
Lemma free_zero t b sz : okseg b sz -> (forall y z c, In (y, z, c) (x_map s) -> b + sz <= y \/ y + z <= b) -> zeror own (view s t) b (b + sz).
Proof.
  intros K P a r A O.
  assert (N : forall y z c v, In (y, z, c) (x_map s) -> about own y z (WEnt r (slot a) v) -> False).
  { intros y z c v M (x & X & OX & E). pose proof (i_inj _ _ _ I _ _ _ OX O) as T. pose proof (i_map _ _ _ I _ _ _ M) as G.
    assert (E2 : x / MB2 = a / MB2) by (apply key; [destruct G as (Q & _); clear - Q X; lia|destruct K as (Q & _); clear - Q A; lia|exact T|exact E]).
    pose proof (seg_blk _ _ _ _ G X E2) as Q. specialize (P _ _ _ M). clear - P Q A; lia. }
  unfold view. rewrite tab_keep.
  - destruct (Z.eq_dec (m_tabs (x_m s) r (slot a)) 0) as [E|E]; [exact E|]. destruct (i_zero _ _ _ I _ _ E) as (y & z & c & M & H). exfalso. exact (N _ _ _ _ M H).
  - intros v H. destruct (i_ent _ _ _ I _ _ _ _ H) as (y & z & c & M & _ & H'). exact (N _ _ _ _ M H').
Qed.
End Facts.

(** ** A thread goes on without a store. *)
Lemma at_goto s t q u : x_at (x_goto s t q) u = if Nat.eqb u t then q else x_at s u.
Proof. reflexivity. Qed.
Lemma crit_goto s t q : (inside q <-> inside (x_at s t)) -> forall u, crit (x_goto s t q) u <-> crit s u.
Proof.
  intros C u. unfold crit. rewrite at_goto. cbn [x_buf x_goto]. destruct (Nat.eqb_spec u t) as [->|N]; [|reflexivity]. rewrite C. reflexivity.
Qed.
Lemma Inv_goto own hand s t q : Inv own hand s -> atok own hand s t q -> (inside q <-> inside (x_at s t)) -> Inv own hand (x_goto s t q).
Proof.
  intros I A C. pose proof (crit_goto s t q C) as CR. destruct I. constructor; try assumption.
  - intros u id r H. destruct (i_reg0 u id r H) as (X & Y & Z). split; [exact X|]. split; [exact Y|]. apply CR. exact Z.
  - intros u H. apply (i_lock0 u), CR, H.
  - intros u v H K. apply (i_one0 u v); apply CR; assumption.
  - intros u H. apply i_in0. revert H. rewrite at_goto. destruct (Nat.eqb_spec u t) as [->|N]; [apply C|auto].
  - intros u. rewrite at_goto. destruct (Nat.eqb_spec u t) as [->|N]; [exact A|exact (i_at0 u)].
Qed.

(** ** A thread goes on with a store. *)
Lemma buf_push s t w u : x_buf (x_push s t w) u = if Nat.eqb u t then x_buf s t ++ [w] else x_buf s u.
Proof. reflexivity. Qed.
Lemma in_push s t w u x : In x (x_buf (x_push s t w) u) <-> In x (x_buf s u) \/ (u = t /\ x = w).
Proof.
  rewrite buf_push. destruct (Nat.eqb_spec u t) as [->|N].
  - rewrite in_app_iff. cbn. intuition congruence.
  - intuition congruence.
Qed.
Lemma view_push s t w : view (x_push s t w) t = apply (view s t) w.
Proof. unfold view. rewrite buf_push, Nat.eqb_refl, fold_left_app. reflexivity. Qed.
Lemma view_push_other s t w u : u <> t -> view (x_push s t w) u = view s u.
Proof. intros N. unfold view. rewrite buf_push. destruct (Nat.eqb_spec u t); [contradiction|reflexivity]. Qed.
Lemma last_split {A} (x y : A) : forall l l1 l2, l ++ [y] = l1 ++ x :: l2 ->
  (x = y /\ l2 = [] /\ l1 = l) \/ exists l3, l2 = l3 ++ [y] /\ l = l1 ++ x :: l3.
Proof.
  intros l l1 l2. destruct (exists_last (l := x :: l2)) as (l3 & z & E); [discriminate|]. rewrite E, app_assoc. intros H.
  apply app_inj_tail in H. destruct H as (-> & ->). destruct l3 as [|x' l3].
  - injection E as -> ->. left. rewrite app_nil_r. auto.
  - injection E as <- ->. right. exists l3. auto.
Qed.
Lemma split_push s t w u x l1 l2 : x_buf (x_push s t w) u = l1 ++ x :: l2 ->
  (u = t /\ x = w /\ l2 = [] /\ l1 = x_buf s t) \/ exists l3, x_buf s u = l1 ++ x :: l3 /\ (l2 = l3 \/ (u = t /\ l2 = l3 ++ [w])).
Proof.
  rewrite buf_push. destruct (Nat.eqb_spec u t) as [->|N]; intros H.
  - destruct (last_split _ _ _ _ _ H) as [(-> & -> & ->)|(l3 & -> & E)]; [left; auto|right; exists l3; auto].
  - right. exists l2. auto.
Qed.
Lemma hidden_push s t w b : (forall v, w <> WGive b v) -> hidden s b -> hidden (x_push s t w) b.
Proof. intros N (A & B). split; [exact A|]. intros u v H. apply in_push in H. destruct H as [H|(_ & H)]; [exact (B _ _ H)|exact (N v (eq_sym H))]. Qed.

Lemma workok_other own hand s s' u w : view s' u = view s u -> x_map s' = x_map s -> x_know s' = x_know s ->
  (forall b, (exists sz c, In (b, sz, c) (x_map s) /\ hand b = u) -> hidden s b -> hidden s' b) -> workok own hand s u w -> workok own hand s' u w.
Proof.
  intros V M K H W. destruct w as [b a|b a|p|p]; cbn [workok] in *; rewrite ?V, ?M, ?K; [| |exact W|exact W];
    (destruct W as (sz & c & W1 & W2 & W3 & W4); exists sz, c; split; [exact W1|]; split; [exact W2|]; split; [|exact W4]; apply H; [eauto|exact W3]).
Qed.
Lemma atok_other own hand s s' u q : view s' u = view s u -> x_map s' = x_map s -> x_know s' = x_know s ->
  (forall b, (exists sz c, In (b, sz, c) (x_map s) /\ hand b = u) -> hidden s b -> hidden s' b) -> atok own hand s u q -> atok own hand s' u q.
Proof.
  intros V M K H A. pose proof (fun w => workok_other own hand s s' u w V M K H) as W.
  assert (B : forall w, below s w -> below s' w) by (intros w; unfold below; rewrite M; auto).
  destruct q; cbn [atok] in *; rewrite ?V, ?M, ?K; try exact A; try (destruct A as (A1 & A2)).
  - split; auto.
  - split; auto.
  - destruct A2. repeat split; auto.
  - destruct A2. repeat split; auto.
  - destruct A2 as (? & ? & ?). repeat split; auto.
  - destruct A2 as (? & ? & ?). repeat split; auto.
  - destruct A2 as (? & ?). repeat split; auto.
  - destruct A2 as (? & ? & ?). repeat split; auto.
  - destruct A2 as (c & A2 & A3). exists A1, c. split; [exact A2|]. apply W. exact A3.
Qed.

Lemma Inv_push own hand s t w q :
  Inv own hand s ->
  (forall r i v, w = WEnt r i v -> exists b sz c, In (b, sz, c) (x_map s) /\ hand b = t /\ about own b sz w) ->
  (forall b sz c, w = WHdr b sz c -> hand b = t /\ exists sz' c', In (b, sz', c') (x_map s)) ->
  (forall b sz c, In (b, sz, c) (x_map s) -> about own b sz w -> hidden s b) ->
  (forall b v, w = WGive b v -> In (t, b) (x_know s)) ->
  (forall id r, w <> WReg id r) ->
  (w = WFree /\ inside (x_at s t) /\ ~ inside q \/ w <> WFree /\ (inside q <-> inside (x_at s t))) ->
  atok own hand (x_push (x_goto s t q) t w) t q ->
  Inv own hand (x_push (x_goto s t q) t w).
Proof.
  intros I HE HH HN HG HR HC A. set (s1 := x_goto s t q) in *.
  assert (B1 : x_buf s1 = x_buf s) by reflexivity. assert (V1 : forall u, view s1 u = view s u) by reflexivity.
  assert (AT : forall u, x_at (x_push s1 t w) u = if Nat.eqb u t then q else x_at s u) by reflexivity.
  assert (CR : forall u, crit (x_push s1 t w) u <-> crit s u).
  { intros u. unfold crit. rewrite AT, in_push, B1. destruct (Nat.eqb_spec u t) as [->|N].
    - destruct HC as [(-> & C1 & C2)|(C1 & C2)]; [intuition|]. rewrite C2. intuition congruence.
    - intuition congruence. }
  assert (SM : forall b sz c, In (b, sz, c) (x_map s) -> ~ hidden s b -> forall u, same own b sz (view s u) (view (x_push s1 t w) u) /\ ~ about own b sz w).
  { intros b sz c M NH u. assert (NA : ~ about own b sz w) by (intros K; exact (NH (HN _ _ _ M K))). split; [|exact NA].
    destruct (Nat.eq_dec u t) as [->|N]; [rewrite view_push, V1; apply same_apply; [exact NA|intros id r E; destruct (HR _ _ E)]|rewrite view_push_other by exact N; apply same_refl]. }
  assert (QT : forall b sz, ~ about own b sz w -> quiet own s b sz -> quiet own (x_push s1 t w) b sz).
  { intros b sz N Q u x H. apply in_push in H. destruct H as [H|(_ & ->)]; [exact (Q _ _ H)|exact N]. }
  pose proof (view_agree own hand s I) as AG.
  pose proof I as I0. destruct I. constructor; try assumption.
  - intros u id r H. apply in_push in H. destruct H as [H|(_ & H)]; [|symmetry in H; destruct (HR _ _ H)].
    destruct (i_reg0 u id r H) as (X & Y & Z). split; [exact X|]. split; [exact Y|]. apply CR. exact Z.
  - intros id r O. destruct (i_own0 id r O) as (X & Y). split; [exact X|]. destruct Y as [Y|(u & Y)]; [left; exact Y|right; exists u; apply in_push; left; exact Y].
  - intros u H. apply (i_lock0 u), CR, H.
  - intros u v H K. apply (i_one0 u v); apply CR; assumption.
  - intros u H K. revert H. rewrite AT. apply in_push in K. rewrite B1 in K. destruct (Nat.eqb_spec u t) as [->|N]; intros H.
    + destruct HC as [(_ & _ & C2)|(C1 & C2)]; [contradiction|]. destruct K as [K|(_ & K)]; [|congruence]. exact (i_in0 t (proj1 C2 H) K).
    + destruct K as [K|(K & _)]; [exact (i_in0 u H K)|contradiction].
  - intros u l1 l2 H. destruct (split_push _ _ _ _ _ _ _ H) as [(-> & E & -> & ->)|(l3 & E & [->|(-> & ->)])]; [constructor|exact (i_free0 _ _ _ E)|].
    apply Forall_app. split; [exact (i_free0 _ _ _ E)|]. constructor; [|constructor]. split; [|exact HR]. intros ->.
    destruct HC as [(_ & C1 & _)|(C1 & _)]; [|congruence]. apply (i_in0 t C1). rewrite <- B1, E. apply in_elt.
  - intros u l1 l2 id r H r' K. destruct (split_push _ _ _ _ _ _ _ H) as [(-> & E & -> & ->)|(l3 & E & [->|(-> & ->)])]; [destruct K|exact (i_once0 _ _ _ _ _ E r' K)|].
    apply in_app_iff in K. destruct K as [K|[K|[]]]; [exact (i_once0 _ _ _ _ _ E r' K)|exact (HR _ _ K)].
  - intros u r i v H. apply in_push in H. destruct H as [H|(-> & H)]; [exact (i_ent0 u r i v H)|]. rewrite H. exact (HE _ _ _ (eq_sym H)).
  - intros u b sz c H. apply in_push in H. destruct H as [H|(-> & H)]; [exact (i_hdr0 u b sz c H)|]. exact (HH _ _ _ (eq_sym H)).
  - intros u b H. destruct (i_know0 u b H) as (sz & c & M & F & Q). exists sz, c. split; [exact M|].
    assert (NH : ~ hidden s b) by (intros (K & _); exact (K u H)). destruct (SM _ _ _ M NH u) as (S & NA).
    split; [exact (full_same own b sz c _ _ (AG u) S F)|]. destruct Q as [Q|Q]; [left; exact Q|right; exact (QT _ _ NA Q)].
  - intros u b v l1 l2 H. destruct (split_push _ _ _ _ _ _ _ H) as [(-> & E & -> & ->)|(l3 & E & E2)].
    + pose proof (HG _ _ (eq_sym E)) as K. destruct (i_know0 t b K) as (sz & c & M & F & Q). exists sz, c. split; [exact M|]. split; [exact F|]. split; [constructor|].
      destruct Q as [Q|Q]; [left; exact Q|right]. apply QT; [rewrite <- E; cbn; auto|exact Q].
    + destruct (i_give0 u b v l1 l3 E) as (sz & c & M & F & N & Q). exists sz, c. split; [exact M|]. split; [exact F|].
      assert (NH : ~ hidden s b) by (intros (_ & K); apply (K u v); rewrite <- B1, E; apply in_elt). destruct (SM _ _ _ M NH u) as (_ & NA).
      split; [destruct E2 as [->|(-> & ->)]; [exact N|apply Forall_app; split; [exact N|constructor; [exact NA|constructor]]]|].
      destruct Q as [Q|Q]; [left; exact Q|right; exact (QT _ _ NA Q)].
  - intros u. rewrite AT. destruct (Nat.eqb_spec u t) as [->|N]; [exact A|].
    apply (atok_other own hand s); [rewrite view_push_other by exact N; apply V1|reflexivity|reflexivity| |exact (i_at0 u)].
    intros b _ HB. apply (hidden_push s1 t w b); [|exact HB]. intros v E. apply (proj1 HB t). exact (HG _ _ E).
Qed.

(** ** Steps of the others. *)
Definition wseg (w : work) : option Z := match w with WSet b _ | WUnset b _ => Some b | _ => None end.
(** The segment a thread is registering or unregistering. *)
Definition on (q : spot) : option Z :=
  match q with
  | QLoop w | QGet w | QLock w | QLook w | QMap w | QUnlock w _ | QRead w _ | QWrite w _ => wseg w
  | QBack b => Some b
  | _ => None
  end.
Lemma on_ok own hand s u q b : atok own hand s u q -> on q = Some b -> hand b = u /\ hidden s b /\ exists sz c, In (b, sz, c) (x_map s).
Proof.
  assert (W : forall w, workok own hand s u w -> wseg w = Some b -> hand b = u /\ hidden s b /\ exists sz c, In (b, sz, c) (x_map s)).
  { intros [y a|y a|p|p]; cbn; intros H E; try discriminate; injection E as ->; destruct H as (sz & c & M & H1 & H2 & _); eauto. }
  destruct q; cbn; intros A E; try discriminate; try (apply (W w); [tauto|exact E]).
  injection E as ->. destruct A as (sz & c & _ & A). exact (W (WUnset b (b + sz)) A eq_refl).
Qed.
Section Mono.
Variables (own : Z -> option nat) (hand hand' : Z -> nat) (s s' : xst) (u : nat) (q : spot).
Hypotheses (AG : agree own (view s u)) (HK : forall b, In (u, b) (x_know s) -> In (u, b) (x_know s'))
  (HM : forall b sz c, In (b, sz, c) (x_map s) -> on q = Some b \/ In (u, b) (x_know s) -> In (b, sz, c) (x_map s'))
  (HH : forall b, on q = Some b -> hand b = u -> hidden s b -> hand' b = u /\ hidden s' b)
  (HV : forall b sz c, In (b, sz, c) (x_map s) -> on q = Some b -> hand b = u -> same own b sz (view s u) (view s' u))
  (HR : forall id r, m_regs (view s u) id = Some r -> m_regs (view s' u) id = Some r).
Lemma workok_mono w : (wseg w = None \/ on q = wseg w) -> workok own hand s u w -> workok own hand' s' u w.
Proof using All.
  intros O W. destruct w as [b a|b a|p|p]; cbn [workok wseg] in *; [| | |exact W].
  - destruct O as [O|O]; [discriminate|]. destruct W as (sz & c & M & H & HI & A & B & HD & F & Z). exists sz, c. pose proof (HV _ _ _ M O H) as S.
    destruct (HH _ O H HI) as (H' & HI'). split; [auto|]. split; [exact H'|]. split; [exact HI'|]. split; [exact A|]. split; [exact B|].
    split; [rewrite <- (proj1 S); exact HD|]. split; [apply (fullr_same own b sz (view s u)); [exact AG|exact S|lia|lia|exact F]|].
    apply (zeror_same own b sz (view s u)); [exact S|lia|lia|exact Z].
  - destruct O as [O|O]; [discriminate|]. destruct W as (sz & c & M & H & HI & A & B & HD & Z & F). exists sz, c. pose proof (HV _ _ _ M O H) as S.
    destruct (HH _ O H HI) as (H' & HI'). split; [auto|]. split; [exact H'|]. split; [exact HI'|]. split; [exact A|]. split; [exact B|].
    split; [rewrite <- (proj1 S); exact HD|]. split; [apply (zeror_same own b sz (view s u)); [exact S|lia|lia|exact Z]|].
    apply (fullr_same own b sz (view s u)); [exact AG|exact S|lia|lia|exact F].
  - destruct W as (b & sz & c & K & M & B). exists b, sz, c. auto.
Qed.
Lemma below_mono w : (wseg w = None \/ on q = wseg w) -> below s w -> below s' w.
Proof using HM.
  intros O W. destruct w as [b a|b a|p|p]; cbn [below wseg] in *; try exact W;
    (destruct O as [O|O]; [discriminate|]; destruct W as (sz & c & M & B); exists sz, c; auto).
Qed.
Lemma atok_mono : atok own hand s u q -> atok own hand' s' u q.
Proof using All.
  intros A. pose proof workok_mono as W. pose proof below_mono as B.
  destruct q as [| |p b c|w|w|w|w|w|w r|w r|w r|p e|p b|b]; cbn [atok on] in *; try exact A.
  - destruct A as (A1 & A2). split; auto.
  - destruct A as (A1 & A2). split; auto.
  - destruct A as (A1 & A2 & A3). repeat split; auto.
  - destruct A as (A1 & A2 & A3). repeat split; auto.
  - destruct A as (A1 & A2 & A3 & A4). repeat split; auto.
  - destruct A as (A1 & A2 & A3 & A4). repeat split; auto.
  - destruct A as (A1 & A2 & A3). repeat split; auto.
  - destruct A as (A1 & A2 & A3 & A4). repeat split; auto.
  - destruct A as (sz & c & K & M & P). exists sz, c. auto.
  - destruct A as (sz & c & M & A). exists sz, c. split; [auto|]. apply W; [right; reflexivity|exact A].
Qed.
End Mono.

(** The lock is taken. *)
Lemma Inv_take own hand s t w : Inv own hand s -> x_at s t = QLock w -> x_lck s = false -> x_buf s t = [] -> Inv own hand (x_take (x_goto s t (QLook w))).
Proof.
  intros I E L B. pose proof (i_at _ _ _ I t) as A. rewrite E in A.
  assert (NC : forall u, ~ crit s u) by (intros u H; rewrite (i_lock _ _ _ I u H) in L; discriminate).
  assert (CR : forall u, crit (x_take (x_goto s t (QLook w))) u -> u = t).
  { intros u [H|H]; [|destruct (NC u); right; exact H]. revert H. change (x_at (x_take (x_goto s t (QLook w))) u) with (x_at (x_goto s t (QLook w)) u). rewrite at_goto.
    destruct (Nat.eqb_spec u t) as [->|N]; [reflexivity|]. intros H. destruct (NC u). left. exact H. }
  destruct I. constructor; try assumption.
  - intros u id r H. destruct (i_reg0 u id r H) as (_ & _ & K). destruct (NC u K).
  - reflexivity.
  - intros u v H K. rewrite (CR _ H), (CR _ K). reflexivity.
  - intros u H K. apply (NC u). right. exact K.
  - intros u. change (x_at (x_take (x_goto s t (QLook w))) u) with (x_at (x_goto s t (QLook w)) u). rewrite at_goto. destruct (Nat.eqb_spec u t) as [->|N]; [exact A|exact (i_at0 u)].
Qed.

(** A region header is put in the table. *)
Lemma zupd_own own (id : Z) (n r : nat) j : zupd own id (Some n) j = Some r -> (j = id /\ r = n) \/ (j <> id /\ own j = Some r).
Proof. unfold zupd. destruct (Z.eqb_spec j id) as [->|N]; intros H; [injection H as <-; auto|auto]. Qed.
Lemma Inv_new own hand s t w : Inv own hand s -> x_at s t = QMap w ->
  Inv (zupd own (target w / TB) (Some (x_next s))) hand (x_push (x_new (x_goto s t (QUnlock w (x_next s)))) t (WReg (target w / TB) (x_next s))).
Proof.
  intros I E. pose proof (i_at _ _ _ I t) as A. rewrite E in A. destruct A as (A1 & A2 & A3 & A4). set (id := target w / TB) in *. set (n := x_next s) in *.
  set (own' := zupd own id (Some n)). set (s1 := x_new (x_goto s t (QUnlock w n))). set (s' := x_push s1 t (WReg id n)).
  assert (UP : forall j r, own j = Some r -> own' j = Some r) by (intros j r H; unfold own'; rewrite zupd_ne; [exact H|intros ->; congruence]).
  assert (AT : forall u, x_at s' u = if Nat.eqb u t then QUnlock w n else x_at s u) by reflexivity.
  assert (IT : inside (x_at s t)) by (rewrite E; exact Logic.I).
  assert (CR : forall u, crit s' u <-> crit s u).
  { intros u. unfold crit, s'. rewrite in_push. fold s'. rewrite AT. change (x_buf s1) with (x_buf s). destruct (Nat.eqb_spec u t) as [->|N].
    - cbn. tauto.
    - intuition congruence. }
  assert (AB : forall b sz r i v, (r < n)%nat -> about own' b sz (WEnt r i v) -> about own b sz (WEnt r i v)).
  { intros b sz r i v L (a & B1 & B2 & B3). exists a. split; [exact B1|]. split; [|exact B3]. destruct (zupd_own _ _ _ _ _ B2) as [(_ & ->)|(_ & K)]; [lia|exact K]. }
  assert (QT : forall b sz, quiet own s b sz -> quiet own' s' b sz).
  { intros b sz Q u x H K. apply in_push in H. destruct H as [H|(_ & ->)]; [|exact K]. destruct x as [j r|r i v|y z d| |y v]; try exact K.
    - apply (Q u _ H). apply AB; [apply (pend_lt _ _ _ I _ _ _ _ H)|exact K].
    - apply (Q u _ H). exact K. }
  assert (AG : forall u, agree own (view s u)) by exact (view_agree _ _ _ I).
  assert (AG' : forall u, agree own' (view s u)) by (intros u j r H; apply UP, (AG u _ _ H)).
  assert (VN : m_regs (view s t) id = None).
  { destruct (m_regs (view s t) id) as [r|] eqn:K; [|reflexivity]. pose proof (AG t _ _ K). congruence. }
  assert (SM : forall b sz u, same own' b sz (view s u) (view s' u)).
  { intros b sz u. destruct (Nat.eq_dec u t) as [->|N]; [|unfold s'; rewrite view_push_other by exact N; apply same_refl].
    unfold s'. rewrite view_push. apply same_apply; [auto|]. intros j r K. injection K as <- <-. exact VN. }
  assert (ZU : forall u lo hi, zeror own (view s u) lo hi -> zeror own' (view s u) lo hi).
  { intros u lo hi Z a r B O. destruct (zupd_own _ _ _ _ _ O) as [(_ & ->)|(_ & K)]; [apply (fresh_zero own hand s I); apply Nat.le_refl|exact (Z a r B K)]. }
  assert (HD : forall b, hidden s b -> hidden s' b) by (intros b H; apply (hidden_push s1 t); [discriminate|exact H]).
  assert (RG : forall u j r, m_regs (view s u) j = Some r -> m_regs (view s' u) j = Some r).
  { intros u j r H. destruct (Nat.eq_dec u t) as [->|N]; [|unfold s'; rewrite view_push_other by exact N; exact H]. unfold s'. rewrite view_push. cbn.
    change (view s1 t) with (view s t). rewrite zupd_ne; [exact H|]. intros ->. congruence. }
  assert (WK : forall u x, workok own hand s u x -> workok own' hand s' u x).
  { intros u [b a|b a|p|p]; cbn [workok]; intros W; [| |exact W|exact W].
    - destruct W as (sz & c & M & H & HI & W1 & W2 & HS & F & Z). exists sz, c. pose proof (SM b sz u) as S. split; [exact M|]. split; [exact H|]. split; [auto|].
      split; [exact W1|]. split; [exact W2|]. split; [rewrite <- (proj1 S); exact HS|]. split; [apply (fullr_same own' b sz (view s u)); [auto|exact S|lia|lia|exact F]|].
      apply (zeror_same own' b sz (view s u)); [exact S|lia|lia|auto].
    - destruct W as (sz & c & M & H & HI & W1 & W2 & HS & Z & F). exists sz, c. pose proof (SM b sz u) as S. split; [exact M|]. split; [exact H|]. split; [auto|].
      split; [exact W1|]. split; [exact W2|]. split; [rewrite <- (proj1 S); exact HS|]. split; [apply (zeror_same own' b sz (view s u)); [exact S|lia|lia|auto]|].
      apply (fullr_same own' b sz (view s u)); [auto|exact S|lia|lia|exact F]. }
  pose proof I as I0. destruct I. constructor; try assumption.
  - intros j r H. apply UP. exact (i_agree0 j r H).
  - intros u j r H. apply in_push in H. destruct H as [H|(-> & H)].
    + destruct (i_reg0 u j r H) as (X & Y & Z). split; [auto|]. split; [exact Y|]. apply CR. exact Z.
    + injection H as -> ->. split; [unfold own'; apply zupd_at|]. split; [|apply CR; left; exact IT].
      destruct (m_regs (x_m s) id) as [r|] eqn:K; [|exact K]. pose proof (i_agree0 _ _ K). congruence.
  - intros j r O. destruct (zupd_own _ _ _ _ _ O) as [(-> & ->)|(N & K)].
    + split; [cbn; lia|]. right. exists t. apply in_push. auto.
    + destruct (i_own0 j r K) as (X & Y). split; [cbn; lia|]. destruct Y as [Y|(u & Y)]; [left; exact Y|right; exists u; apply in_push; left; exact Y].
  - intros j j' r O O'. destruct (zupd_own _ _ _ _ _ O) as [(-> & ->)|(N & K)]; destruct (zupd_own _ _ _ _ _ O') as [(-> & K')|(N' & K')]; [reflexivity| | |exact (i_inj0 _ _ _ K K')].
    + pose proof (proj1 (i_own0 _ _ K')). unfold n in *. lia.
    + subst r. pose proof (proj1 (i_own0 _ _ K)). unfold n in *. lia.
  - intros u H. apply (i_lock0 u), CR, H.
  - intros u v H K. apply (i_one0 u v); apply CR; assumption.
  - intros u H K. apply in_push in K. destruct K as [K|(_ & K)]; [|discriminate]. revert H. rewrite AT. destruct (Nat.eqb_spec u t) as [->|N]; intros H; [exact (i_in0 t IT K)|exact (i_in0 u H K)].
  - intros u l1 l2 H. destruct (split_push _ _ _ _ _ _ _ H) as [(-> & K & _ & _)|(l3 & K & [->|(-> & ->)])]; [discriminate|exact (i_free0 _ _ _ K)|].
    exfalso. apply (i_in0 t IT). change (x_buf s1) with (x_buf s) in K. rewrite K. apply in_elt.
  - intros u l1 l2 j r H r' K. destruct (split_push _ _ _ _ _ _ _ H) as [(-> & _ & -> & _)|(l3 & K2 & [->|(-> & ->)])]; [destruct K|exact (i_once0 _ _ _ _ _ K2 r' K)|].
    apply in_app_iff in K. destruct K as [K|[K|[]]]; [exact (i_once0 _ _ _ _ _ K2 r' K)|]. injection K as -> ->.
    assert (H1 : In (WReg j r) (x_buf s t)) by (change (x_buf s1) with (x_buf s) in K2; rewrite K2; apply in_elt).
    pose proof (proj1 (i_reg0 _ _ _ H1)). congruence.
  - intros u r i v H. apply in_push in H. destruct H as [H|(_ & H)]; [|discriminate]. destruct (i_ent0 u r i v H) as (b & sz & c & M & HH & (a & B1 & B2 & B3)).
    exists b, sz, c. split; [exact M|]. split; [exact HH|]. exists a. auto.
  - intros u b sz c H. apply in_push in H. destruct H as [H|(_ & H)]; [exact (i_hdr0 u b sz c H)|discriminate].
  - intros r i H. destruct (i_zero0 r i H) as (b & sz & c & M & (a & B1 & B2 & B3)). exists b, sz, c. split; [exact M|]. exists a. auto.
  - intros u b H. destruct (i_know0 u b H) as (sz & c & M & F & Q). exists sz, c. split; [exact M|]. split; [exact (full_same own' b sz c _ _ (AG' u) (SM b sz u) F)|].
    destruct Q as [Q|Q]; [left; exact Q|right; exact (QT _ _ Q)].
  - intros u b v l1 l2 H. destruct (split_push _ _ _ _ _ _ _ H) as [(_ & K & _ & _)|(l3 & K & K2)]; [discriminate|].
    destruct (i_give0 u b v l1 l3 K) as (sz & c & M & F & N & Q). exists sz, c. split; [exact M|]. split; [exact F|].
    assert (N' : Forall (fun x => ~ about own' b sz x) l3).
    { apply Forall_forall. intros x X Y. rewrite Forall_forall in N. assert (XB : In x (x_buf s u)) by (change (x_buf s1) with (x_buf s) in K; rewrite K; apply in_app_iff; right; right; exact X).
      apply (N x X). destruct x as [j r|r i v'|y z d| |y v']; try exact Y. apply AB; [apply (pend_lt _ _ _ I0 _ _ _ _ XB)|exact Y]. }
    split; [destruct K2 as [->|(-> & ->)]; [exact N'|apply Forall_app; split; [exact N'|constructor; [cbn; auto|constructor]]]|].
    destruct Q as [Q|Q]; [left; exact Q|right; exact (QT _ _ Q)].
  - intros u. rewrite AT. destruct (Nat.eqb_spec u t) as [->|N].
    + cbn [atok]. split; [exact A1|]. split; [apply WK; exact A2|]. split; [exact A3|]. unfold s'. rewrite view_push. cbn. apply zupd_at.
    + pose proof (i_at0 u) as AU. destruct (x_at s u) as [| |p b c|x|x|x|x|x|x r|x r|x r|p e|p b|b] eqn:EU; cbn [atok] in *; try exact AU.
      * destruct AU as (U1 & U2). split; auto.
      * destruct AU as (U1 & U2). split; auto.
      * destruct AU as (U1 & U2 & U3). repeat split; auto.
      * destruct AU as (U1 & U2 & U3). repeat split; auto.
      * exfalso. apply N. apply i_one0; [left; rewrite EU; exact Logic.I|left; exact IT].
      * destruct AU as (U1 & U2 & U3 & U4). repeat split; auto.
      * destruct AU as (U1 & U2 & U3). repeat split; auto.
      * destruct AU as (U1 & U2 & U3 & U4). repeat split; auto.
      * destruct AU as (sz & c & M & U). exists sz, c. auto.
Qed.

(** ** Pointers. *)
Lemma Inv_learn own hand s t b sz c : Inv own hand s -> In (b, sz, c) (x_map s) -> full (view s t) b sz c -> t = hand b \/ quiet own s b sz ->
  (forall u, on (x_at s u) <> Some b) -> Inv own hand (x_knows s ((t, b) :: x_know s)).
Proof.
  intros I M F Q N. pose proof (view_agree _ _ _ I) as AG. destruct I. constructor; try assumption.
  - intros u y [H|H]; [|exact (i_know0 u y H)]. injection H as <- <-. exists sz, c. auto.
  - intros u. apply (atok_mono own hand hand s); [exact (AG u)| | | | |auto|exact (i_at0 u)].
    + intros y H. right. exact H.
    + auto.
    + intros y O HH (H1 & H2). split; [exact HH|]. split; [|exact H2]. intros v [K|K]; [|exact (H1 v K)]. injection K as <- <-. exact (N u O).
    + intros. apply same_refl.
Qed.
Lemma in_forget t b l x y : In (x, y) (forget t b l) <-> In (x, y) l /\ ~ (x = t /\ y = b).
Proof.
  unfold forget. rewrite filter_In, negb_true_iff, andb_false_iff. destruct (Nat.eqb_spec x t), (Z.eqb_spec y b); intuition congruence.
Qed.
Lemma Inv_forget own hand s t b : Inv own hand s -> idle (x_at s t) -> Inv own hand (x_knows s (forget t b (x_know s))).
Proof.
  intros I ID. pose proof (view_agree _ _ _ I) as AG. destruct I. constructor; try assumption.
  - intros u y H. apply in_forget in H. exact (i_know0 u y (proj1 H)).
  - intros u. destruct (Nat.eq_dec u t) as [->|N].
    + change (x_at (x_knows s (forget t b (x_know s))) t) with (x_at s t). destruct (x_at s t); try destruct ID; exact Logic.I.
    + apply (atok_mono own hand hand s); [exact (AG u)| | | | |auto|exact (i_at0 u)].
      * intros y H. apply in_forget. split; [exact H|]. intros (-> & _). apply N. reflexivity.
      * auto.
      * intros y O HH (H1 & H2). split; [exact HH|]. split; [|exact H2]. intros v K. apply in_forget in K. exact (H1 v (proj1 K)).
      * intros. apply same_refl.
Qed.
Lemma Inv_hand own hand s b sz t : Inv own hand s -> hand b = t \/ quiet own s b sz -> (exists c, In (b, sz, c) (x_map s)) -> hidden s b ->
  (forall u, on (x_at s u) <> Some b) -> Inv own (zupd hand b t) s.
Proof.
  intros I Q (c & M) H N. pose proof (view_agree _ _ _ I) as AG. pose proof (map_one _ _ _ I) as MO. destruct I. constructor; try assumption.
  - intros u r i v K. destruct (i_ent0 u r i v K) as (y & z & d & M' & H' & A). exists y, z, d. split; [exact M'|]. split; [|exact A].
    destruct (Z.eq_dec y b) as [->|E]; [|rewrite zupd_ne by exact E; exact H']. rewrite zupd_at. destruct Q as [Q|Q]; [congruence|].
    destruct (MO _ _ _ _ _ M M') as (<- & _). destruct (Q _ _ K A).
  - intros u y z d K. destruct (i_hdr0 u y z d K) as (H' & M'). split; [|exact M']. destruct (Z.eq_dec y b) as [->|E]; [|rewrite zupd_ne by exact E; exact H'].
    rewrite zupd_at. destruct Q as [Q|Q]; [congruence|]. destruct (Q _ _ K eq_refl).
  - intros u y K. destruct (i_know0 u y K) as (z & d & M' & F & Q'). exists z, d. split; [exact M'|]. split; [exact F|]. rewrite zupd_ne; [exact Q'|].
    intros ->. exact (proj1 H u K).
  - intros u y v l1 l2 K. destruct (i_give0 u y v l1 l2 K) as (z & d & M' & F & L & Q'). exists z, d. split; [exact M'|]. split; [exact F|]. split; [exact L|].
    rewrite zupd_ne; [exact Q'|]. intros ->. apply (proj2 H u v). rewrite K. apply in_elt.
  - intros u. apply (atok_mono own hand (zupd hand b t) s); [exact (AG u)|auto|auto| |intros; apply same_refl|auto|exact (i_at0 u)].
    intros y O HH HI. split; [|exact HI]. rewrite zupd_ne; [exact HH|]. intros ->. exact (N u O).
Qed.

(** ** Segments. *)
Lemma Inv_mapadd own hand s t b sz c : Inv own hand s -> okseg b sz -> (forall y z d, In (y, z, d) (x_map s) -> b + sz <= y \/ y + z <= b) ->
  Inv own (zupd hand b t) (x_maps s ((b, sz, c) :: x_map s)) /\ hidden s b /\ forall z d, ~ In (b, z, d) (x_map s).
Proof.
  intros I G P. pose proof (view_agree _ _ _ I) as AG.
  assert (NM : forall z d, ~ In (b, z, d) (x_map s)).
  { intros z d H. specialize (P _ _ _ H). destruct (i_map _ _ _ I _ _ _ H) as (_ & _ & K & _). destruct G as (_ & _ & G & _). lia. }
  assert (HI : hidden s b).
  { split.
    - intros u H. destruct (i_know _ _ _ I u b H) as (z & d & M & _). exact (NM _ _ M).
    - intros u v H. apply in_split in H. destruct H as (l1 & l2 & H). destruct (i_give _ _ _ I u b v l1 l2 H) as (z & d & M & _). exact (NM _ _ M). }
  split; [|split; [exact HI|exact NM]].
  assert (UP : forall y z d, In (y, z, d) (x_map s) -> zupd hand b t y = hand y) by (intros y z d H; apply zupd_ne; intros ->; exact (NM _ _ H)).
  destruct I. constructor; try assumption.
  - intros y z d [H|H]; [injection H as <- <- <-; exact G|exact (i_map0 _ _ _ H)].
  - intros y z d y' z' d' [H|H] [K|K].
    + left. congruence.
    + injection H as <- <- <-. right. specialize (P _ _ _ K). lia.
    + injection K as <- <- <-. right. specialize (P _ _ _ H). lia.
    + exact (i_apart0 _ _ _ _ _ _ H K).
  - intros u r i v H. destruct (i_ent0 u r i v H) as (y & z & d & M & HH & A). exists y, z, d. split; [right; exact M|]. split; [rewrite (UP _ _ _ M); exact HH|exact A].
  - intros u y z d H. destruct (i_hdr0 u y z d H) as (HH & z' & d' & M). split; [rewrite (UP _ _ _ M); exact HH|]. exists z', d'. right. exact M.
  - intros r i H. destruct (i_zero0 r i H) as (y & z & d & M & A). exists y, z, d. split; [right; exact M|exact A].
  - intros u y H. destruct (i_know0 u y H) as (z & d & M & F & Q). exists z, d. split; [right; exact M|]. split; [exact F|]. rewrite (UP _ _ _ M). exact Q.
  - intros u y v l1 l2 H. destruct (i_give0 u y v l1 l2 H) as (z & d & M & F & L & Q). exists z, d. split; [right; exact M|]. split; [exact F|]. split; [exact L|].
    rewrite (UP _ _ _ M). exact Q.
  - intros u. apply (atok_mono own hand (zupd hand b t) s); [exact (AG u)|auto|intros y z d H _; right; exact H| |intros; apply same_refl|auto|exact (i_at0 u)].
    intros y O HH H. split; [|exact H]. rewrite zupd_ne; [exact HH|]. intros ->. destruct (on_ok _ _ _ _ _ _ (i_at0 u) O) as (_ & _ & z & d & M). exact (NM _ _ M).
Qed.
Lemma in_unmap b l (y z d : Z) : In (y, z, d) (filter (fun '(x, _, _) => negb (x =? b)) l) <-> In (y, z, d) l /\ y <> b.
Proof. rewrite filter_In, negb_true_iff, Z.eqb_neq. reflexivity. Qed.
Lemma Inv_unmap own hand s t b : Inv own hand s -> x_at s t = QBack b -> x_buf s t = [] ->
  Inv own hand (x_maps (x_goto s t QDone) (filter (fun '(y, _, _) => negb (y =? b)) (x_map s))).
Proof.
  intros I E B. pose proof (view_agree _ _ _ I) as AG. pose proof (i_at _ _ _ I t) as A. rewrite E in A.
  destruct A as (sz & c & M & (sz' & c' & M' & HB & (H1 & H2) & _ & _ & _ & Z & _)). clear sz' c' M'.
  assert (V : view s t = x_m s) by (unfold view; rewrite B; reflexivity). rewrite V in Z.
  assert (K : forall u y, In (u, y) (x_know s) -> y <> b) by (intros u y H ->; exact (H1 u H)).
  pose proof (Inv_goto own hand s t QDone I Logic.I) as I1. rewrite E in I1. specialize (I1 (conj (fun x => x) (fun x => x))).
  set (s1 := x_goto s t QDone) in *. pose proof (map_one _ _ _ I) as MO. clear I. destruct I1. constructor; try assumption.
  - intros y z d H. apply in_unmap in H. exact (i_map0 _ _ _ (proj1 H)).
  - intros y z d y' z' d' H H'. apply in_unmap in H. apply in_unmap in H'. exact (i_apart0 _ _ _ _ _ _ (proj1 H) (proj1 H')).
  - intros u r i v H. destruct (i_ent0 u r i v H) as (y & z & d & N & HH & A). exists y, z, d. split; [|split; [exact HH|exact A]].
    apply in_unmap. split; [exact N|]. intros ->. cut (In (WEnt r i v) (x_buf s u)); [replace u with t by congruence; rewrite B; auto|exact H].
  - intros u y z d H. destruct (i_hdr0 u y z d H) as (HH & z' & d' & N). split; [exact HH|]. exists z', d'. apply in_unmap. split; [exact N|].
    intros ->. cut (In (WHdr b z d) (x_buf s u)); [replace u with t by congruence; rewrite B; auto|exact H].
  - intros r i H. destruct (i_zero0 r i H) as (y & z & d & N & A). exists y, z, d. split; [|exact A]. apply in_unmap. split; [exact N|]. intros ->.
    destruct (MO _ _ _ _ _ M N) as (<- & _). destruct A as (a & A1 & A2 & A3). apply H. rewrite <- A3. apply (Z a r A1 A2).
  - intros u y H. destruct (i_know0 u y H) as (z & d & N & F & Q). exists z, d. split; [apply in_unmap; split; [exact N|exact (K u y H)]|]. split; [exact F|exact Q].
  - intros u y v l1 l2 H. destruct (i_give0 u y v l1 l2 H) as (z & d & N & F & L & Q). exists z, d. split; [|split; [exact F|split; [exact L|exact Q]]].
    apply in_unmap. split; [exact N|]. intros ->. apply (H2 u v). replace (x_buf s u) with (l1 ++ WGive b v :: l2) by (symmetry; exact H). apply in_elt.
  - intros u. apply (atok_mono own hand hand s1); [exact (AG u)|auto| | |intros; apply same_refl|auto|exact (i_at0 u)].
    + intros y z d N [O|O]; apply in_unmap; (split; [exact N|]).
      * intros ->. destruct (on_ok _ _ _ _ _ _ (i_at0 u) O) as (HH & _). revert O. replace u with t by congruence. cbn. rewrite fupd_at. discriminate.
      * exact (K u y O).
    + intros y O HH HI. split; [exact HH|exact HI].
Qed.

(** ** A store reaches memory. *)
Lemma regs_fold l : forall m m', (forall id r, m_regs m id = Some r -> m_regs m' id = Some r) ->
  forall id r, m_regs (fold_left apply l m) id = Some r -> m_regs (fold_left apply l m') id = Some r.
Proof.
  induction l as [|w l IH]; intros m m' H id r; [apply H|]. cbn. apply IH. intros j q. destruct w; try apply H. cbn. unfold zupd. destruct (j =? id0); [auto|apply H].
Qed.
Lemma full_apply own m w b sz c : agree own m -> (forall id r, w = WReg id r -> own id = Some r) -> ~ about own b sz w -> full m b sz c -> full (apply m w) b sz c.
Proof.
  intros G F N (A & B). destruct w as [id r|r i v|y z d| |y u]; try (split; [exact A|exact B]).
  - split; [exact A|]. intros a K. destruct (B a K) as (q & R & T). exists q. split; [|exact T]. cbn. unfold zupd. destruct (Z.eqb_spec (a / TB) id) as [E|E]; [|exact R].
    rewrite E in R. rewrite <- (F _ _ eq_refl). exact (G _ _ R).
  - split; [exact A|]. intros a K. destruct (B a K) as (q & R & T). exists q. split; [exact R|]. rewrite tab_ne; [exact T|]. intros (-> & E). apply N. exists a.
    split; [exact K|]. split; [apply G; exact R|exact E].
  - split; [|exact B]. cbn. rewrite zupd_ne; [exact A|]. intros E. apply N. symmetry. exact E.
Qed.
Lemma full_fold own b sz c l : forall m, agree own m -> (forall id r, In (WReg id r) l -> own id = Some r) -> Forall (fun w => ~ about own b sz w) l ->
  full m b sz c -> full (fold_left apply l m) b sz c.
Proof.
  induction l as [|w l IH]; intros m G F N A; [exact A|]. cbn. inversion N as [|? ? N1 N2]; subst.
  assert (F1 : forall id r, w = WReg id r -> own id = Some r) by (intros id r ->; apply F; left; reflexivity).
  apply IH; [apply agree_apply; assumption|intros id r H; apply F; right; exact H|exact N2|]. apply full_apply with (own := own); assumption.
Qed.
Definition flushed (s : xst) (t : nat) (w : wr) (l : list wr) : xst :=
  mkX (apply (x_m s) w) (match w with WFree => false | _ => x_lck s end) (fupd (x_buf s) t l) (x_map s)
      (match w with WGive b u => (u, b) :: x_know s | _ => x_know s end) (x_at s) (x_next s).
Lemma wfree_dec w : {w = WFree} + {w <> WFree}.
Proof. destruct w; try (right; discriminate). left. reflexivity. Qed.
Lemma Inv_flush own hand s t w l : Inv own hand s -> x_buf s t = w :: l -> Inv own hand (flushed s t w l).
Proof.
  intros I E. set (s' := flushed s t w l).
  assert (IW : In w (x_buf s t)) by (rewrite E; left; reflexivity).
  assert (BF : forall u, x_buf s' u = if Nat.eqb u t then l else x_buf s u) by reflexivity.
  assert (IN : forall u x, In x (x_buf s' u) -> In x (x_buf s u)).
  { intros u x. rewrite BF. destruct (Nat.eqb_spec u t) as [->|N]; [rewrite E; right; assumption|auto]. }
  assert (INW : forall u x, x <> w -> In x (x_buf s u) -> In x (x_buf s' u)).
  { intros u x N. rewrite BF. destruct (Nat.eqb_spec u t) as [->|N']; [rewrite E; intros [H|H]; [congruence|exact H]|auto]. }
  assert (VT : view s' t = view s t) by (unfold view; rewrite BF, Nat.eqb_refl, E; reflexivity).
  assert (VO : forall u, u <> t -> view s' u = fold_left apply (x_buf s u) (apply (x_m s) w)).
  { intros u N. unfold view. rewrite BF. destruct (Nat.eqb_spec u t); [contradiction|reflexivity]. }
  assert (RW : forall id r, w = WReg id r -> own id = Some r /\ m_regs (x_m s) id = None /\ crit s t) by (intros id r ->; exact (i_reg _ _ _ I _ _ _ IW)).
  assert (SA : forall b sz, ~ about own b sz w -> same own b sz (x_m s) (apply (x_m s) w)).
  { intros b sz N. apply same_apply; [exact N|]. intros id r K. apply (RW _ _ K). }
  assert (SM : forall b sz u, ~ about own b sz w -> same own b sz (view s u) (view s' u)).
  { intros b sz u N. destruct (Nat.eq_dec u t) as [->|K]; [rewrite VT; apply same_refl|]. rewrite (VO u K). apply same_fold, SA, N. }
  assert (NA : forall b sz c u, In (b, sz, c) (x_map s) -> u <> t -> u = hand b \/ quiet own s b sz -> ~ about own b sz w).
  { intros b sz c u M N [Q|Q]; [|exact (Q _ _ IW)]. apply (other_not_about _ _ _ I t b sz c); [exact M|congruence|exact IW]. }
  assert (QT : forall b sz, quiet own s b sz -> quiet own s' b sz) by (intros b sz Q u x H; exact (Q u x (IN _ _ H))).
  assert (CR : forall u, crit s' u -> crit s u) by (intros u [H|H]; [left; exact H|right; exact (IN _ _ H)]).
  assert (CF : w = WFree -> Forall calm l) by (intros ->; exact (i_free _ _ _ I t [] l E)).
  assert (NC : w = WFree -> forall u, ~ crit s' u).
  { intros W u H. assert (u = t) by (apply (i_one _ _ _ I); [exact (CR _ H)|right; rewrite <- W; exact IW]). subst u. destruct H as [H|H].
    - apply (i_in _ _ _ I t H). rewrite <- W. exact IW.
    - rewrite BF, Nat.eqb_refl in H. specialize (CF W). rewrite Forall_forall in CF. destruct (CF _ H) as (K & _). apply K. reflexivity. }
  assert (AG : forall u, agree own (view s u)) by exact (view_agree _ _ _ I).
  assert (AM : agree own (apply (x_m s) w)) by (apply agree_apply; [exact (i_agree _ _ _ I)|intros id r K; apply (RW _ _ K)]).
  assert (RV : forall u id r, m_regs (view s u) id = Some r -> m_regs (view s' u) id = Some r).
  { intros u id r H. destruct (Nat.eq_dec u t) as [->|N]; [rewrite VT; exact H|]. rewrite (VO u N). apply (regs_fold (x_buf s u) (x_m s)); [|exact H].
    intros j q K. destruct w as [i0 q0|q0 i0 v0|y0 z0 d0| |y0 v0]; try exact K. cbn. unfold zupd. destruct (Z.eqb_spec j i0) as [->|J]; [|exact K].
    destruct (RW _ _ eq_refl) as (_ & K2 & _). congruence. }
  assert (HI : forall b, hidden s b -> hidden s' b).
  { intros b (H1 & H2). split; [|intros u v H; exact (H2 u v (IN _ _ H))]. intros u H. destruct w as [i0 q0|q0 i0 v0|y0 z0 d0| |y0 v0]; try exact (H1 u H).
    destruct H as [H|H]; [|exact (H1 u H)]. injection H as <- <-. exact (H2 t v0 IW). }
  pose proof I as I0. destruct I. constructor; try assumption.
  - intros u id r H. destruct (i_reg0 u id r (IN _ _ H)) as (X & Y & Z). split; [exact X|].
    assert (NF : w <> WFree).
    { intros W. assert (u = t) by (apply i_one0; [exact Z|right; rewrite <- W; exact IW]). subst u. rewrite BF, Nat.eqb_refl in H. specialize (CF W).
      rewrite Forall_forall in CF. destruct (CF _ H) as (_ & K). exact (K _ _ eq_refl). }
    split.
    + cbn. destruct w as [i0 q0|q0 i0 v0|y0 z0 d0| |y0 v0]; try exact Y. cbn. unfold zupd. destruct (Z.eqb_spec id i0) as [->|J]; [|exact Y]. exfalso.
      assert (u = t) by (apply i_one0; [exact Z|apply (RW _ _ eq_refl)]). subst u. rewrite BF, Nat.eqb_refl in H. exact (i_once0 t [] l i0 q0 E r H).
    + destruct Z as [Z|Z]; [left; exact Z|right; apply INW; [congruence|exact Z]].
  - intros id r O. destruct (i_own0 id r O) as (X & Y). split; [exact X|]. destruct Y as [Y|(u & Y)].
    + left. cbn. destruct w as [i0 q0|q0 i0 v0|y0 z0 d0| |y0 v0]; try exact Y. cbn. unfold zupd. destruct (Z.eqb_spec id i0) as [->|J]; [|exact Y].
      destruct (RW _ _ eq_refl) as (_ & K2 & _). congruence.
    + assert (D : WReg id r = w \/ WReg id r <> w).
      { destruct w as [i0 q0|q0 i0 v0|y0 z0 d0| |y0 v0]; try (right; discriminate). destruct (Z.eq_dec id i0) as [->|J]; [|right; congruence].
        destruct (Nat.eq_dec r q0) as [->|J]; [left; reflexivity|right; congruence]. }
      destruct D as [D|D]; [left; cbn; rewrite <- D; cbn; apply zupd_at|right; exists u; apply INW; assumption].
  - intros u H. destruct (wfree_dec w) as [W|W]; [destruct (NC W u H)|]. pose proof (i_lock0 u (CR _ H)) as K. cbn. destruct w; try exact K. congruence.
  - intros u v H K. apply i_one0; apply CR; assumption.
  - intros u H K. exact (i_in0 u H (IN _ _ K)).
  - intros u l1 l2. rewrite BF. destruct (Nat.eqb_spec u t) as [->|N]; intros H; [|exact (i_free0 u l1 l2 H)]. apply (i_free0 t (w :: l1) l2). rewrite E, H. reflexivity.
  - intros u l1 l2 id r. rewrite BF. destruct (Nat.eqb_spec u t) as [->|N]; intros H; [|exact (i_once0 u l1 l2 id r H)]. apply (i_once0 t (w :: l1) l2 id r). rewrite E, H. reflexivity.
  - intros u r i v H. exact (i_ent0 u r i v (IN _ _ H)).
  - intros u b sz c H. exact (i_hdr0 u b sz c (IN _ _ H)).
  - intros r i H. destruct w as [i0 q0|q0 i0 v0|y0 z0 d0| |y0 v0]; try exact (i_zero0 r i H).
    destruct (Nat.eq_dec r q0) as [->|R]; [destruct (Z.eq_dec i i0) as [->|J]|].
    + destruct (i_ent0 t q0 i0 v0 IW) as (b & sz & c & M & _ & A). exists b, sz, c. split; [exact M|exact A].
    + apply i_zero0. cbn [x_m s' flushed] in H. rewrite tab_ne in H by tauto. exact H.
    + apply i_zero0. cbn [x_m s' flushed] in H. rewrite tab_ne in H by tauto. exact H.
  - assert (OLD : forall u b, In (u, b) (x_know s) -> exists sz c, In (b, sz, c) (x_map s) /\ full (view s' u) b sz c /\ (u = hand b \/ quiet own s' b sz)).
    { intros u b H. destruct (i_know0 u b H) as (sz & c & M & F & Q). exists sz, c. split; [exact M|]. split; [|destruct Q as [Q|Q]; [left; exact Q|right; exact (QT _ _ Q)]].
      destruct (Nat.eq_dec u t) as [->|N]; [rewrite VT; exact F|]. apply (full_same own b sz c (view s u)); [exact (AG u)|apply SM; exact (NA _ _ _ _ M N Q)|exact F]. }
    intros u b H. destruct w as [i0 q0|q0 i0 v0|y0 z0 d0| |y0 v0]; try exact (OLD u b H). destruct H as [H|H]; [|exact (OLD u b H)]. injection H as <- <-.
    destruct (i_give0 t y0 v0 [] l E) as (sz & c & M & F & L & Q). exists sz, c. split; [exact M|].
    assert (QQ : quiet own s' y0 sz).
    { destruct Q as [Q|Q]; [|exact (QT _ _ Q)]. intros x z. rewrite BF. destruct (Nat.eqb_spec x t) as [->|N]; intros H.
      - rewrite Forall_forall in L. exact (L z H).
      - apply (other_not_about _ _ _ I0 x y0 sz c); [exact M|congruence|exact H]. }
    split; [|right; exact QQ]. unfold view. apply (full_fold own); [exact AM|intros id r H; apply (i_reg0 _ _ _ (IN _ _ H))| |exact F].
    apply Forall_forall. intros z Z. exact (QQ _ _ Z).
  - intros u b v l1 l2. rewrite BF. destruct (Nat.eqb_spec u t) as [->|N]; intros H.
    + destruct (i_give0 t b v (w :: l1) l2) as (sz & c & M & F & L & Q); [rewrite E, H; reflexivity|]. exists sz, c. split; [exact M|]. split; [exact F|]. split; [exact L|].
      destruct Q as [Q|Q]; [left; exact Q|right; exact (QT _ _ Q)].
    + destruct (i_give0 u b v l1 l2 H) as (sz & c & M & F & L & Q). exists sz, c. split; [exact M|]. split; [|split; [exact L|destruct Q as [Q|Q]; [left; exact Q|right; exact (QT _ _ Q)]]].
      apply (full_same own b sz c (fold_left apply l1 (x_m s))); [|apply same_fold, SA; exact (NA _ _ _ _ M N Q)|exact F].
      apply agree_fold; [exact i_agree0|]. intros id r K. assert (K' : In (WReg id r) (x_buf s u)) by (rewrite H; apply in_app_iff; left; exact K). apply (i_reg0 _ _ _ K').
  - intros u. apply (atok_mono own hand hand s); [exact (AG u)| |auto| | |exact (RV u)|exact (i_at0 u)].
    + intros b H. cbn. destruct w; try exact H. right. exact H.
    + intros b _ H K. split; [exact H|exact (HI b K)].
    + intros b sz c M _ H. destruct (Nat.eq_dec u t) as [->|N]; [rewrite VT; apply same_refl|]. apply SM. apply (NA b sz c u M N). left. symmetry. exact H.
Qed.

(** ** Every step. *)
Lemma mapped_in s b sz c : In (b, sz, c) (x_map s) -> mapped s b = true.
Proof. intros H. unfold mapped. apply existsb_exists. exists (b, sz, c). split; [exact H|apply Z.eqb_refl]. Qed.
Lemma work_addr own hand s u w : Inv own hand s -> workok own hand s u w -> below s w -> get_id (target w) = Ok (target w / TB).
Proof.
  intros I W B. destruct w as [b a|b a|p|p]; cbn [target].
  - destruct B as (sz & c & M & K). exact (id_ok b sz a (i_map _ _ _ I _ _ _ M) K).
  - destruct B as (sz & c & M & K). exact (id_ok b sz a (i_map _ _ _ I _ _ _ M) K).
  - destruct W as (b & sz & c & _ & M & K). exact (id_ok b sz p (i_map _ _ _ I _ _ _ M) K).
  - destruct B.
Qed.
Lemma find_entry own hand s u p : Inv own hand s -> workok own hand s u (WFind p) ->
  exists b sz c r, In (u, b) (x_know s) /\ In (b, sz, c) (x_map s) /\ b <= p < b + sz /\ m_hdr (view s u) b = (sz, c) /\
    m_regs (view s u) (p / TB) = Some r /\ m_tabs (view s u) r (slot p) = b.
Proof.
  intros I (b & sz & c & K & M & B). destruct (i_know _ _ _ I u b K) as (sz' & c' & M' & (H & F) & _). destruct (map_one _ _ _ I _ _ _ _ _ M M') as (<- & <-).
  destruct (F p B) as (r & R & T). exists b, sz, c, r. repeat split; auto; apply B.
Qed.
Lemma distinct own hand s b sz a x r : Inv own hand s -> okseg b sz -> a mod MB2 = 0 -> b <= a -> a + MB2 <= x < b + sz ->
  own (x / TB) = Some r -> own (a / TB) = Some r -> slot x <> slot a.
Proof.
  intros I G A B X O O' E. pose proof (i_inj _ _ _ I _ _ _ O O') as T. destruct G as (G & _).
  assert (MP : MB2 > 0) by reflexivity. assert (K : x / MB2 = a / MB2) by (apply key; [clear - G B X MP; lia|clear - G B; lia|exact T|exact E]). clear - K A X. unfold MB2 in *. lia.
Qed.
(** An entry of the segment in hand is written. *)
Lemma Inv_write own hand s t w r b a v : Inv own hand s -> x_at s t = QWrite w r -> (w = WSet b a /\ v = b \/ w = WUnset b a /\ v = 0) ->
  Inv own hand (x_push (x_goto s t (QLoop (match w with WSet _ _ => WSet b (add64 a MB2) | _ => WUnset b (add64 a MB2) end))) t (WEnt r (slot a) v)).
Proof.
  intros I E C. pose proof (i_at _ _ _ I t) as A. rewrite E in A. destruct A as (_ & W & B & R). pose proof (view_agree _ _ _ I t) as AG.
  set (q := QLoop _).
  assert (X : exists sz c, In (b, sz, c) (x_map s) /\ hand b = t /\ hidden s b /\ a mod MB2 = 0 /\ b <= a < b + sz /\ m_hdr (view s t) b = (sz, c) /\ target w = a).
  { destruct C as [(-> & _)|(-> & _)]; destruct W as (sz & c & W1 & W2 & W3 & W4 & W5 & W6 & _); destruct B as (sz' & c' & M & K);
      destruct (map_one _ _ _ I _ _ _ _ _ W1 M) as (-> & ->); exists sz', c'; repeat split; auto; try apply W3; try apply K. }
  destruct X as (sz & c & M & HB & HI & AL & BB & HD & TG). rewrite TG in R. pose proof (AG _ _ R) as OA. pose proof (i_map _ _ _ I _ _ _ M) as G.
  destruct (next_blk _ _ _ G AL BB) as (NX & AL' & LE).
  assert (AB : about own b sz (WEnt r (slot a) v)) by (exists a; auto).
  apply Inv_push; [exact I| | | | |discriminate| |].
  - intros r0 i0 v0 K. injection K as <- <- <-. exists b, sz, c. auto.
  - discriminate.
  - intros y z d M' A'. rewrite (ent_one _ _ _ I _ _ _ _ _ _ _ _ _ _ M' M A' AB). exact HI.
  - discriminate.
  - right. split; [discriminate|]. rewrite E. reflexivity.
  - set (s' := x_push _ _ _). assert (V : view s' t = apply (view s t) (WEnt r (slot a) v)) by (unfold s'; rewrite view_push; reflexivity).
    assert (HI' : hidden s' b) by (apply (hidden_push (x_goto s t q) t); [discriminate|exact HI]).
    assert (HD' : m_hdr (view s' t) b = (sz, c)) by (rewrite V; exact HD).
    assert (G0 : 0 <= a) by (destruct G as (G & _); lia). assert (MP : MB2 > 0) by reflexivity.
    destruct C as [(-> & ->)|(-> & ->)]; destruct W as (sz0 & c0 & M0 & _ & _ & _ & _ & _ & P1 & P2); destruct (map_one _ _ _ I _ _ _ _ _ M M0) as (<- & <-);
      (split; [exact Logic.I|]); exists sz, c; (split; [exact M|]); (split; [exact HB|]); (split; [exact HI'|]); rewrite NX; (split; [exact AL'|]); (split; [clear - BB LE MP; lia|]); (split; [exact HD'|]);
      rewrite V; split.
    + intros x X. destruct (Z_lt_dec x a) as [L|L].
      * destruct (P1 x) as (q' & Q1 & Q2); [lia|]. exists q'. split; [exact Q1|]. destruct (Nat.eq_dec q' r) as [->|N]; [destruct (Z.eq_dec (slot x) (slot a)) as [K|K]|].
        -- rewrite K. apply tab_at.
        -- rewrite tab_ne by tauto. exact Q2.
        -- rewrite tab_ne by tauto. exact Q2.
      * destruct (blk x a G0 AL) as (K1 & K2); [lia|]. exists r. rewrite K1, K2. split; [exact R|apply tab_at].
    + intros x r' X O. rewrite tab_ne; [apply P2; [assert (MB2 > 0) by reflexivity; lia|exact O]|]. intros (-> & K). exact (distinct own hand s b sz a x r I G AL ltac:(lia) X O OA K).
    + intros x r' X O. destruct (Nat.eq_dec r' r) as [->|N]; [destruct (Z.eq_dec (slot x) (slot a)) as [K|K]|].
      * rewrite K. apply tab_at.
      * rewrite tab_ne by tauto. destruct (Z_lt_dec x a) as [L|L]; [apply P1; [lia|exact O]|]. destruct (blk x a G0 AL) as (K1 & K2); [lia|]. contradiction.
      * rewrite tab_ne by tauto. destruct (Z_lt_dec x a) as [L|L]; [apply P1; [lia|exact O]|]. destruct (blk x a G0 AL) as (K1 & K2); [lia|]. rewrite K1 in O. congruence.
    + intros x X. destruct (P2 x) as (q' & Q1 & Q2); [assert (MB2 > 0) by reflexivity; lia|]. exists q'. split; [exact Q1|]. rewrite tab_ne; [exact Q2|].
      intros (-> & K). exact (distinct own hand s b sz a x r I G AL ltac:(lia) X (AG _ _ Q1) OA K).
Qed.

Lemma go_ok own hand s t : Inv own hand s -> exists s' own', x_go true t s = Ok s' /\ Inv own' hand s'.
Proof.
  intros I. pose proof (i_at _ _ _ I t) as A. pose proof (view_agree _ _ _ I t) as AG. unfold x_go.
  assert (ST : exists s' own', Ok s = Ok s' /\ Inv own' hand s') by (exists s, own; split; [reflexivity|exact I]).
  assert (GT : forall q, atok own hand s t q -> (inside q <-> inside (x_at s t)) -> exists s' own', Ok (x_goto s t q) = Ok s' /\ Inv own' hand s').
  { intros q Q C. exists (x_goto s t q), own. split; [reflexivity|]. apply Inv_goto; assumption. }
  destruct (x_at s t) as [| |p b c|w|w|w|w|w|w r|w r|w r|p e|p b|b] eqn:E; cbn [atok] in A; try exact ST.
  - (* QLoop *) destruct A as (A1 & A2). destruct w as [b a|b a|p|p]; try destruct A1; cbn [x_loop].
    + destruct A2 as (sz & c & M & HB & HI & AL & B & HD & F & Z) eqn:E2. clear E2. rewrite (mapped_in _ _ _ _ M). cbn [negb]. rewrite HD. cbn [fst].
      rewrite (end_ok _ _ (i_map _ _ _ I _ _ _ M)). destruct (Z.ltb_spec a (b + sz)) as [L|L].
      * apply GT; [|reflexivity]. split; [exact A2|]. exists sz, c. split; [exact M|lia].
      * assert (a = b + sz) by lia. subst a. eexists. exists own. split; [reflexivity|].
        assert (I1 : Inv own hand (x_goto s t QDone)) by (apply Inv_goto; [exact I|exact Logic.I|rewrite E; reflexivity]).
        apply (Inv_learn own hand (x_goto s t QDone) t b sz c I1); [exact M|split; [exact HD|exact F]|left; symmetry; exact HB|].
        intros u O. destruct (on_ok _ _ _ _ _ _ (i_at _ _ _ I1 u) O) as (H & _). assert (K : u = t) by congruence. clear H. rewrite K in O. cbn in O. rewrite fupd_at in O. discriminate O.
    + destruct A2 as (sz & c & M & HB & HI & AL & B & HD & Z & F) eqn:E2. clear E2. rewrite (mapped_in _ _ _ _ M). cbn [negb]. rewrite HD. cbn [fst].
      rewrite (end_ok _ _ (i_map _ _ _ I _ _ _ M)). destruct (Z.ltb_spec a (b + sz)) as [L|L].
      * apply GT; [|reflexivity]. split; [exact A2|]. exists sz, c. split; [exact M|lia].
      * assert (a = b + sz) by lia. subst a. apply GT; [|reflexivity]. exists sz, c. split; [exact M|exact A2].
  - (* QGet *) destruct A as (A1 & A2). rewrite (work_addr _ _ _ _ _ I A1 A2). cbn [rbind]. destruct (m_regs (view s t) (target w / TB)) as [r|] eqn:R.
    + apply GT; [|reflexivity]. cbn. auto.
    + apply GT; [|reflexivity]. cbn. destruct w as [b a|b a|p|p]; [split; [exact Logic.I|split; assumption]|split; [exact Logic.I|split; assumption]| |destruct A2].
      destruct (find_entry _ _ _ _ _ I A1) as (b & sz & c & r & _ & _ & _ & _ & R' & _). cbn [target] in R. congruence.
  - (* QLock *) destruct (x_lck s || waits true s t) eqn:W; [exact ST|]. apply orb_false_iff in W. destruct W as (W1 & W2).
    eexists. exists own. split; [reflexivity|]. apply Inv_take; [exact I|exact E|exact W1|]. cbn in W2. destruct (x_buf s t); [reflexivity|discriminate].
  - (* QLook *) destruct A as (A0 & A1 & A2). rewrite (work_addr _ _ _ _ _ I A1 A2). cbn [rbind]. destruct (m_regs (view s t) (target w / TB)) as [r|] eqn:R.
    + apply GT; [|reflexivity]. cbn. auto.
    + apply GT; [|reflexivity]. cbn. split; [exact A0|]. split; [exact A1|]. split; [exact A2|]. destruct (own (target w / TB)) as [r|] eqn:O; [|reflexivity]. exfalso.
      destruct (i_own _ _ _ I _ _ O) as (_ & [K|(u & K)]).
      * assert (K' : m_regs (view s t) (target w / TB) = Some r); [|congruence].
        assert (KF : forall l m id r, agree own m -> (forall j q, In (WReg j q) l -> own j = Some q) -> m_regs m id = Some r -> m_regs (fold_left apply l m) id = Some r).
        { clear. induction l as [|x l IH]; intros m id r G F H; [exact H|]. cbn. assert (F1 : forall j q, x = WReg j q -> own j = Some q) by (intros j q ->; apply F; left; reflexivity).
          apply IH; [apply agree_apply; assumption|intros j q K; apply F; right; exact K|]. destruct x; try exact H. cbn. unfold zupd. destruct (Z.eqb_spec id id0) as [->|N]; [|exact H].
          rewrite <- (F1 _ _ eq_refl). apply G. exact H. }
        apply KF; [exact (i_agree _ _ _ I)|intros j q J; apply (i_reg _ _ _ I _ _ _ J)|exact K].
      * pose proof (i_reg _ _ _ I _ _ _ K) as (_ & _ & CU). assert (u = t) by (apply (i_one _ _ _ I); [exact CU|left; rewrite E; exact Logic.I]). subst u.
        assert (KF : forall l m id r, In (WReg id r) l -> exists q, m_regs (fold_left apply l m) id = Some q).
        { clear. induction l as [|x l IH]; intros m id r H; [destruct H|]. cbn. destruct H as [->|H]; [|exact (IH _ _ _ H)].
          assert (KG : forall l m id r, m_regs m id = Some r -> exists q, m_regs (fold_left apply l m) id = Some q).
          { clear. induction l as [|x l IH]; intros m id r H; [exists r; exact H|]. cbn. destruct x; try (apply (IH _ id r); exact H). destruct (Z.eq_dec id id0) as [->|N].
            - eapply IH. cbn. apply zupd_at.
            - apply (IH _ id r). cbn. rewrite zupd_ne by exact N. exact H. }
          eapply KG. cbn. apply zupd_at. }
        destruct (KF _ (x_m s) _ _ K) as (q & Q). unfold view in R. congruence.
  - (* QMap *) destruct A as (A0 & A1 & A2 & A3). rewrite (work_addr _ _ _ _ _ I A1 A2). cbn [rbind]. eexists. eexists. split; [reflexivity|]. exact (Inv_new own hand s t w I E).
  - (* QUnlock *) destruct A as (A0 & A1 & A2 & A3). eexists. exists own. split; [reflexivity|].
    apply Inv_push; [exact I|discriminate|discriminate|intros y z d _ []|discriminate|discriminate|left; rewrite E; split; [reflexivity|split; [exact Logic.I|auto]]|].
    set (s' := x_push _ _ _). assert (V : view s' t = view s t) by (unfold s'; rewrite view_push; reflexivity). cbn [atok]. rewrite V.
    split; [|split; [exact A2|exact A3]]. apply (workok_other own hand s); [exact V|reflexivity|reflexivity| |exact A1].
    intros y _ H. apply (hidden_push (x_goto s t (QRead w r)) t); [discriminate|exact H].
  - (* QRead *) destruct A as (A1 & A2 & A3). destruct w as [b a|b a|p|p]; cbn [x_read target] in *.
    + assert (Z0 : m_tabs (view s t) r (slot a) = 0).
      { destruct A1 as (sz & c & M & _ & _ & _ & B & _ & _ & Z). destruct A2 as (sz' & c' & M' & B'). destruct (map_one _ _ _ I _ _ _ _ _ M M') as (<- & <-).
        apply Z; [lia|apply AG; exact A3]. }
      rewrite Z0. cbn [Z.eqb]. apply GT; [|reflexivity]. cbn. auto.
    + assert (EB : m_tabs (view s t) r (slot a) = b).
      { destruct A1 as (sz & c & M & _ & _ & _ & B & _ & _ & F). destruct A2 as (sz' & c' & M' & B'). destruct (map_one _ _ _ I _ _ _ _ _ M M') as (<- & <-).
        destruct (F a) as (q & Q1 & Q2); [lia|]. congruence. }
      rewrite EB, Z.eqb_refl. apply GT; [|reflexivity]. cbn. auto.
    + destruct (find_entry _ _ _ _ _ I A1) as (b & sz & c & q & K & M & B & HD & R & T). assert (q = r) by congruence. subst q. rewrite T.
      pose proof (i_map _ _ _ I _ _ _ M) as (G & _). replace ((b =? 0) || (p <? b)) with false by lia. cbn [andb]. apply GT; [|reflexivity]. cbn. exists sz, c. auto.
    + destruct A2.
  - (* QWrite *) destruct w as [b a|b a|p|p]; [| |destruct A as ([] & _)|destruct A as ([] & _)].
    + eexists. exists own. split; [reflexivity|]. apply (Inv_write own hand s t (WSet b a) r b a b I E). left. auto.
    + eexists. exists own. split; [reflexivity|]. apply (Inv_write own hand s t (WUnset b a) r b a 0 I E). right. auto.
  - (* QSize *) destruct A.
  - (* QChain *) destruct A as (sz & c & K & M & B). pose proof (i_map _ _ _ I _ _ _ M) as (G & _). destruct (Z.eqb_spec b 0) as [->|N]; [lia|].
    rewrite (mapped_in _ _ _ _ M). cbn [negb]. apply GT; [exact Logic.I|reflexivity].
  - (* QBack *) destruct (waits true s t) eqn:W; [exact ST|]. eexists. exists own. split; [reflexivity|]. apply Inv_unmap; [exact I|exact E|].
    cbn in W. destruct (x_buf s t); [reflexivity|discriminate].
Qed.

Lemma step_ok own hand s a : Inv own hand s -> xvalid s a -> exists s' own' hand', xstep true true a s = Ok s' /\ Inv own' hand' s'.
Proof.
  intros I V. destruct a as [t c b sz|t b|t p|t b u|t b|t|t i]; cbn [xstep xvalid] in *.
  - destruct V as (ID & V1 & V2 & V3 & V4 & V5 & P). assert (G : okseg b sz) by (repeat split; assumption).
    destruct (Inv_mapadd own hand s t b sz c I G P) as (I1 & HI & NM). eexists. exists own, (zupd hand b t). split; [reflexivity|].
    apply (Inv_push own (zupd hand b t) (x_maps s ((b, sz, c) :: x_map s)) t (WHdr b sz c) (QLoop (WSet b b)) I1); [discriminate| | |discriminate|discriminate| |].
    + intros y z d K. injection K as <- <- <-. split; [apply zupd_at|]. exists sz, c. left. reflexivity.
    + intros y z d _ K. cbn in K. subst y. exact HI.
    + right. split; [discriminate|]. cbn. destruct (x_at s t); cbn in *; tauto.
    + split; [exact Logic.I|]. exists sz, c. split; [left; reflexivity|]. split; [apply zupd_at|].
      split; [apply (hidden_push (x_goto (x_maps s ((b, sz, c) :: x_map s)) t (QLoop (WSet b b))) t); [discriminate|exact HI]|].
      split; [exact V4|]. split; [lia|]. rewrite view_push. split; [cbn; apply zupd_at|]. split; [intros x X; lia|].
      intros x r X O. cbn. exact (free_zero own hand s I t b sz G P x r X O).
  - destruct V as (ID & K & ON & NG). destruct (i_know _ _ _ I t b K) as (sz & c & M & (HD & F) & Q).
    assert (N : forall u, on (x_at s u) <> Some b).
    { intros u O. destruct (on_ok _ _ _ _ _ _ (i_at _ _ _ I u) O) as (_ & (H & _) & _). exact (H t K). }
    pose proof (Inv_forget own hand s t b I ID) as I1. set (s1 := x_knows s (forget t b (x_know s))) in *.
    assert (HI : hidden s1 b). { split; [|exact NG]. intros u H. apply in_forget in H. destruct H as (H & H'). apply H'. split; [exact (ON u H)|reflexivity]. }
    assert (I2 : Inv own (zupd hand b t) s1). { apply (Inv_hand own hand s1 b sz t I1); [destruct Q as [Q|Q]; [left; congruence|right; exact Q]|exists c; exact M|exact HI|exact N]. }
    eexists. exists own, (zupd hand b t). split; [reflexivity|]. apply (Inv_goto own (zupd hand b t) s1 t (QLoop (WUnset b b)) I2).
    + split; [exact Logic.I|]. pose proof (i_map _ _ _ I _ _ _ M) as (G1 & _ & G3 & G4 & _). exists sz, c. split; [exact M|]. split; [apply zupd_at|]. split; [exact HI|].
      split; [exact G4|]. split; [lia|]. split; [exact HD|]. split; [intros x r X; lia|exact F].
    + cbn. destruct (x_at s t); cbn in *; tauto.
  - destruct V as (ID & b & sz & c & K & M & B). eexists. exists own, hand. split; [reflexivity|]. apply Inv_goto; [exact I| |].
    + split; [|exact Logic.I]. exists b, sz, c. auto.
    + cbn. destruct (x_at s t); cbn in *; tauto.
  - destruct V as (ID & K). eexists. exists own, hand. split; [reflexivity|].
    apply Inv_push; [exact I|discriminate|discriminate|intros y z d _ []| |discriminate| |exact Logic.I].
    + intros y v E. injection E as <- <-. exact K.
    + right. split; [discriminate|]. cbn. destruct (x_at s t); cbn in *; tauto.
  - eexists. exists own, hand. split; [reflexivity|]. apply Inv_forget; assumption.
  - destruct (go_ok own hand s t I) as (s' & own' & E & I'). exists s', own', hand. auto.
  - eexists. exists own, hand. split; [reflexivity|]. unfold x_flush. destruct (nth_error (x_buf s t) i) as [w|] eqn:E; [|exact I].
    destruct (Nat.eqb_spec i 0) as [->|N]; [|exact I]. destruct (x_buf s t) as [|w' l] eqn:B; [discriminate|]. cbn in E. injection E as ->.
    cbn [firstn skipn app]. exact (Inv_flush own hand s t w l I B).
Qed.

(** ** Executions. *)
Lemma Inv_0 : Inv (fun _ => None) (fun _ => O) x0.
Proof.
  constructor; cbn; intros; try contradiction; try discriminate; try exact Logic.I;
    try (match goal with H : crit _ _ |- _ => destruct H as [H|H]; destruct H end);
    try (match goal with H : [] = ?l ++ _ |- _ => destruct l; discriminate H end); try (unfold agree; cbn; intros; discriminate); auto.
  all: match goal with H : 0 <> 0 |- _ => destruct H; reflexivity end.
Qed.
Lemma reach_inv s : xreach true true s -> exists own hand, Inv own hand s.
Proof.
  induction 1 as [|s a s' _ (own & hand & I) V E]; [exists (fun _ => None), (fun _ => O); exact Inv_0|].
  destruct (step_ok own hand s a I V) as (s1 & own' & hand' & E1 & I1). rewrite E in E1. injection E1 as <-. exists own', hand'. exact I1.
Qed.
Lemma no_stop s a : xreach true true s -> xvalid s a -> exists s', xstep true true a s = Ok s' /\ xreach true true s'.
Proof.
  intros R V. destruct (reach_inv s R) as (own & hand & I). destruct (step_ok own hand s a I V) as (s1 & own' & hand' & E1 & _).
  exists s1. split; [exact E1|]. exact (xreach_step _ _ s a s1 R V E1).
Qed.

(** The last access of a lookup. *)
Lemma last_access s t p s' p' b c : xreach true true s -> seeks (x_at s t) = Some p -> x_go true t s = Ok s' -> x_at s' t = QFound p' b c ->
  p' = p /\ exists sz, In (b, sz, c) (x_map s') /\ b <= p < b + sz.
Proof.
  intros R S G F. destruct (reach_inv s R) as (own & hand & I). pose proof (i_at _ _ _ I t) as A.
  destruct (x_at s t) as [| |p0 b0 c0|w|w|w|w|w|w r|w r|w r|p0 e|p0 b0|b0] eqn:E; cbn [seeks] in S; try discriminate; cbn [atok] in A.
  - destruct A as (A1 & A2). unfold x_go in G. rewrite E in G. rewrite (work_addr _ _ _ _ _ I A1 A2) in G. cbn [rbind] in G. injection G as <-. cbn in F. rewrite fupd_at in F.
    destruct (m_regs (view s t) (target w / TB)); discriminate F.
  - destruct A as (A & _). destruct w; try discriminate S; destruct A.
  - destruct A as (A & _). destruct w; try discriminate S; destruct A.
  - destruct A as (A & _). destruct w; try discriminate S; destruct A.
  - destruct A as (A & _). destruct w; try discriminate S; destruct A.
  - destruct A as (A1 & A2 & A3). destruct w as [y a|y a|q|q]; try discriminate S; [|destruct A2].
    destruct (find_entry _ _ _ _ _ I A1) as (b1 & sz & c1 & q1 & K & M & B & HD & R1 & T). cbn [target] in A3. assert (q1 = r) by congruence. subst q1.
    unfold x_go in G. rewrite E in G. cbn [x_read target] in G. rewrite T in G. pose proof (i_map _ _ _ I _ _ _ M) as (G0 & _).
    replace ((b1 =? 0) || (q <? b1)) with false in G by lia. cbn [andb] in G. injection G as <-. cbn in F. rewrite fupd_at in F. discriminate F.
  - destruct A.
  - destruct A as (sz & c1 & K & M & B). injection S as <-. pose proof (i_map _ _ _ I _ _ _ M) as (G0 & _). unfold x_go in G. rewrite E in G.
    replace (b0 =? 0) with false in G by lia. rewrite (mapped_in _ _ _ _ M) in G. cbn [negb] in G. injection G as <-. cbn in F. rewrite fupd_at in F. injection F as <- <- <-.
    destruct (i_know _ _ _ I t b0 K) as (sz' & c' & M' & (HD & _) & _). destruct (map_one _ _ _ I _ _ _ _ _ M M') as (<- & <-).
    split; [reflexivity|]. exists sz. rewrite HD. split; [exact M|exact B].
Qed.
(** A lookup goes on by itself to its end. *)
Lemma lookup_ends s t p : xreach true true s -> seeks (x_at s t) = Some p ->
  exists n s' b sz c, (n <= 3)%nat /\ alone n t s = Ok s' /\ x_at s' t = QFound p b c /\ In (b, sz, c) (x_map s') /\ b <= p < b + sz.
Proof.
  intros R S.
  assert (C3 : forall s, xreach true true s -> forall b, x_at s t = QChain p b -> exists s' sz c, alone 1 t s = Ok s' /\ x_at s' t = QFound p b c /\ In (b, sz, c) (x_map s') /\ b <= p < b + sz).
  { clear. intros s R b E. destruct (reach_inv s R) as (own & hand & I). pose proof (i_at _ _ _ I t) as A. rewrite E in A. cbn in A. destruct A as (sz & c & K & M & B).
    pose proof (i_map _ _ _ I _ _ _ M) as (G0 & _). destruct (i_know _ _ _ I t b K) as (sz' & c' & M' & (HD & _) & _). destruct (map_one _ _ _ I _ _ _ _ _ M M') as (<- & <-).
    cbn [alone]. unfold x_go. rewrite E. replace (b =? 0) with false by lia. rewrite (mapped_in _ _ _ _ M). cbn [negb rbind]. eexists. exists sz, c. split; [reflexivity|].
    cbn. rewrite fupd_at, HD. repeat split; auto; apply B. }
  assert (C2 : forall s, xreach true true s -> forall r, x_at s t = QRead (WFind p) r -> exists s' b sz c, alone 2 t s = Ok s' /\ x_at s' t = QFound p b c /\ In (b, sz, c) (x_map s') /\ b <= p < b + sz).
  { clear - C3. intros s R r E. destruct (reach_inv s R) as (own & hand & I). pose proof (i_at _ _ _ I t) as A. rewrite E in A. cbn in A. destruct A as (A1 & A2 & A3).
    destruct (find_entry _ _ _ _ _ I A1) as (b & sz & c & q1 & K & M & B & HD & R1 & T). assert (q1 = r) by congruence. subst q1. pose proof (i_map _ _ _ I _ _ _ M) as (G0 & _).
    assert (G : x_go true t s = Ok (x_goto s t (QChain p b))).
    { unfold x_go. rewrite E. cbn [x_read target]. rewrite T. replace ((b =? 0) || (p <? b)) with false by lia. reflexivity. }
    assert (R2 : xreach true true (x_goto s t (QChain p b))) by exact (xreach_step _ _ s (SGo t) _ R Logic.I G).
    destruct (C3 _ R2 b) as (s' & sz' & c' & N & H); [cbn; apply fupd_at|]. exists s', b, sz', c'. split; [|exact H]. change (alone 2 t s) with (rbind (x_go true t s) (alone 1 t)). rewrite G. exact N. }
  destruct (reach_inv s R) as (own & hand & I). pose proof (i_at _ _ _ I t) as A.
  destruct (x_at s t) as [| |p0 b0 c0|w|w|w|w|w|w r|w r|w r|p0 e|p0 b0|b0] eqn:E; cbn [seeks] in S; try discriminate; cbn [atok] in A.
  - destruct A as (A1 & A2). destruct w as [y a|y a|q|q]; try discriminate S; [|destruct A2]. injection S as ->.
    destruct (find_entry _ _ _ _ _ I A1) as (b & sz & c & r & K & M & B & HD & R1 & T).
    assert (G : x_go true t s = Ok (x_goto s t (QRead (WFind p) r))).
    { unfold x_go. rewrite E. rewrite (work_addr _ _ _ _ _ I A1 A2). cbn [rbind target]. rewrite R1. reflexivity. }
    assert (R2 : xreach true true (x_goto s t (QRead (WFind p) r))) by exact (xreach_step _ _ s (SGo t) _ R Logic.I G).
    destruct (C2 _ R2 r) as (s' & b' & sz' & c' & N & H); [cbn; apply fupd_at|]. exists 3%nat, s', b', sz', c'. split; [lia|]. split; [|exact H].
    change (alone 3 t s) with (rbind (x_go true t s) (alone 2 t)). rewrite G. exact N.
  - destruct A as (A & _). destruct w; try discriminate S; destruct A.
  - destruct A as (A & _). destruct w; try discriminate S; destruct A.
  - destruct A as (A & _). destruct w; try discriminate S; destruct A.
  - destruct A as (A & _). destruct w; try discriminate S; destruct A.
  - destruct A as (A1 & A2 & A3). destruct w as [y a|y a|q|q]; try discriminate S; [|destruct A2]. injection S as ->.
    destruct (C2 _ R r E) as (s' & b' & sz' & c' & N & H). exists 2%nat, s', b', sz', c'. split; [lia|]. split; [exact N|exact H].
  - destruct A.
  - injection S as ->. destruct (C3 _ R b0 E) as (s' & sz' & c' & N & H). exists 1%nat, s', b0, sz', c'. split; [lia|]. split; [exact N|exact H].
Qed.
(** One region header for a region, whoever looks. *)
Lemma regions_agree s t u id id' r r' : xreach true true s -> m_regs (view s t) id = Some r -> m_regs (view s u) id' = Some r' -> (id = id' <-> r = r').
Proof.
  intros R H H'. destruct (reach_inv s R) as (own & hand & I). apply (view_agree _ _ _ I t) in H. apply (view_agree _ _ _ I u) in H'. split; [intros <-; congruence|intros <-].
  exact (i_inj _ _ _ I _ _ _ H H').
Qed.
Lemma region_kept s a s' t id r : xreach true true s -> xvalid s a -> xstep true true a s = Ok s' -> m_regs (x_m s) id = Some r -> m_regs (view s' t) id = Some r.
Proof.
  intros R V E H. assert (R' : xreach true true s') by exact (xreach_step _ _ s a s' R V E). destruct (reach_inv s R) as (own & hand & I).
  assert (H' : m_regs (x_m s') id = Some r).
  { assert (K : x_m s' = x_m s \/ exists u w, In w (x_buf s u) /\ x_m s' = apply (x_m s) w).
    { destruct a as [v c b sz|v b|v p|v b u|v b|v|v i]; cbn [xstep] in E; try (injection E as <-; left; reflexivity).
      - left. unfold x_go in E. destruct (x_at s v) as [| |? ? ?|w|w|w|w|w|w q|w q|w q|? e|? b|b]; try (injection E as <-; reflexivity).
        + unfold x_loop in E. destruct w as [b a|b a|?|?]; try discriminate; (destruct (negb (mapped s b)); [discriminate|]); [destruct (a <? _)|]; injection E as <-; reflexivity.
        + destruct (get_id (target w)); try discriminate. injection E as <-. reflexivity.
        + destruct (x_lck s || waits true s v); injection E as <-; reflexivity.
        + destruct (get_id (target w)); try discriminate. injection E as <-. reflexivity.
        + destruct (get_id (target w)); try discriminate. injection E as <-. reflexivity.
        + unfold x_read in E. destruct w; [destruct (_ =? 0); [|discriminate]| | |]; injection E as <-; reflexivity.
        + destruct w; try discriminate; injection E as <-; reflexivity.
        + destruct (negb (mapped s e)); [discriminate|]. injection E as <-. reflexivity.
        + destruct (b =? 0); [injection E as <-; reflexivity|]. destruct (negb (mapped s b)); [discriminate|]. injection E as <-. reflexivity.
        + destruct (waits true s v); injection E as <-; reflexivity.
      - injection E as <-. unfold x_flush. destruct (nth_error (x_buf s v) i) as [w|] eqn:N; [|left; reflexivity]. destruct (Nat.eqb i 0); [|left; reflexivity].
        right. exists v, w. split; [exact (nth_error_In _ _ N)|reflexivity]. }
    destruct K as [->|(u & w & B & ->)]; [exact H|]. destruct w as [j q|? ? ?|? ? ?| |? ?]; try exact H. cbn. destruct (i_reg _ _ _ I u j q B) as (_ & Q & _).
    rewrite zupd_ne; [exact H|intros ->; congruence]. }
  destruct (reach_inv s' R') as (own' & hand' & I').
  assert (KF : forall l m, agree own' m -> (forall j q, In (WReg j q) l -> own' j = Some q) -> m_regs m id = Some r -> m_regs (fold_left apply l m) id = Some r).
  { clear. induction l as [|x l IH]; intros m G F H; [exact H|]. cbn. assert (F1 : forall j q, x = WReg j q -> own' j = Some q) by (intros j q ->; apply F; left; reflexivity).
    apply IH; [apply agree_apply; assumption|intros j q K; apply F; right; exact K|]. destruct x; try exact H. cbn. unfold zupd. destruct (Z.eqb_spec id id0) as [->|N]; [|exact H].
    rewrite <- (F1 _ _ eq_refl). apply G. exact H. }
  apply KF; [exact (i_agree _ _ _ I')|intros j q J; apply (i_reg _ _ _ I' _ _ _ J)|exact H'].
Qed.
(** No thread reads an entry other than 0 for addresses that no segment holds. *)
Lemma unmapped_zero s u b sz a r : xreach true true s -> 4194304 <= b -> b + sz <= 2 ^ 48 -> b mod 2097152 = 0 -> sz mod 2097152 = 0 ->
  (forall y z c, In (y, z, c) (x_map s) -> b + sz <= y \/ y + z <= b) -> b <= a < b + sz -> m_regs (view s u) (a / TB) = Some r -> m_tabs (view s u) r (slot a) = 0.
Proof.
  intros R H1 H2 H3 H4 P B H. destruct (reach_inv s R) as (own & hand & I). apply (free_zero own hand s I u b sz); [repeat split; try assumption; lia|exact P|exact B|].
  apply (view_agree _ _ _ I u). exact H.
Qed.
(** Pointers of the threads lead to mapped segments, and a lookup by the owner of the pointer would be answered by what it reads. *)
Lemma known_mapped s t b : xreach true true s -> In (t, b) (x_know s) ->
  exists sz c, In (b, sz, c) (x_map s) /\ m_hdr (view s t) b = (sz, c) /\ forall a, b <= a < b + sz -> exists r, m_regs (view s t) (a / TB) = Some r /\ m_tabs (view s t) r (slot a) = b.
Proof.
  intros R K. destruct (reach_inv s R) as (own & hand & I). destruct (i_know _ _ _ I t b K) as (sz & c & M & (HD & F) & _). exists sz, c. split; [exact M|]. split; [exact HD|exact F].
Qed.
(** One thread at a time makes a region header. *)
Lemma one_maker s t u : xreach true true s -> inside (x_at s t) -> inside (x_at s u) -> t = u.
Proof. intros R H H'. destruct (reach_inv s R) as (own & hand & I). apply (i_one _ _ _ I); left; assumption. Qed.
