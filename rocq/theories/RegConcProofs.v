(** The invariant of the registry with several threads. *)
From Verif Require Import Word Res RegionModel RegConcModel RegConcSpec.
From Coq Require Import ZArith List Bool Lia Arith.
Import ListNotations.
Open Scope Z_scope.

Definition of_work (w : work) : option (bool * Z * Z) := match w with WSet b a => Some (true, b, a) | WUnset b a => Some (false, b, a) | _ => None end.
Definition prog (p : place) : option (bool * Z * Z) :=
  match p with
  | PLoop w | PGet w | PTest w | PInitLock w | PFlag w | PClear w | PLock w | PLook w | PMap w | PUnlock w _ | PRead w _ | PWrite w _ => of_work w
  | _ => None
  end.
Definition past (p : place) : bool := match p with PLoop _ => false | _ => true end.
Definition inlock (p : place) : bool := match p with PLook _ | PMap _ | PUnlock _ _ => true | _ => false end.
Definition placeok (p : place) : bool :=
  match p with
  | PInitLock _ | PFlag _ | PClear _ | PDel1 _ _ _ | PDel2 _ _ _ | PDel3 _ _ _ | PDelEnd => false
  | PLoop w | PWrite w _ => match w with WFind _ | WBack _ => false | _ => true end
  | _ => true
  end.
Definition region (p : place) : option (Z * nat) :=
  match p with
  | PUnlock w r | PRead w r | PWrite w r => Some (target w, r)
  | PRead2 p r | PRead3 p r => Some (p, r)
  | PBack2 p r | PBack3 p r | PBack4 p r _ | PHdr p r _ _ | PBack5 p r => Some (p - MB2, r)
  | _ => None
  end.
Definition back (p : place) : bool :=
  match p with
  | PGet (WBack _) | PTest (WBack _) | PLock (WBack _) | PLook (WBack _) | PMap (WBack _) | PUnlock (WBack _) _ | PRead (WBack _) _ => true
  | PBack2 _ _ | PBack3 _ _ | PBack4 _ _ _ | PHdr _ _ _ _ | PBack5 _ _ => true
  | _ => false
  end.
Definition ent (s : cst) (a : Z) : Z := match cregs s (a / TB) with Some r => entry s r a | None => 0 end.
Inductive claim (s : cst) (b : Z) : Z -> Z -> Prop :=
| cl_live sz : In (b, sz) (clive s) -> claim s b b (b + sz)
| cl_set t a : prog (cat s t) = Some (true, b, a) -> claim s b b a
| cl_unset t a sz c : prog (cat s t) = Some (false, b, a) -> chdr s b = Some (sz, c) -> claim s b a (b + sz).
(** No entry of segment [b] is in the slot of [p]. *)
Definition late (b sz p : Z) : Prop := forall a, b <= a < b + sz -> (a - b) mod MB2 = 0 -> a / MB2 <> p / MB2.
Definition known (b : Z) (p : place) : Prop := match p with PBack4 _ _ e => e = b | PHdr _ _ e e' => e = b /\ e' = b | _ => True end.
Definition findok (L : list (Z * Z)) (pl : place) : Prop := forall p, looking pl = Some p ->
  exists b sz, In (b, sz) L /\ b <= p < b + sz /\ (back pl = true -> late b sz p) /\ known b pl.

Record Inv (once : bool) (s : cst) : Prop := mkInv {
  v_ini : cini s = true;
  v_place : forall t, placeok (cat s t) = true;
  v_lock : forall t1 t2, inlock (cat s t1) = true -> inlock (cat s t2) = true -> t1 = t2;
  v_lock2 : forall t, inlock (cat s t) = true -> clck s = true;
  v_next : forall id r, cregs s id = Some r -> (r < cnext s)%nat;
  v_inj : forall i j r, cregs s i = Some r -> cregs s j = Some r -> i = j;
  v_reg : forall t a r, region (cat s t) = Some (a, r) -> cregs s (a / TB) = Some r;
  v_map : forall t w, cat s t = PMap w -> cregs s (target w / TB) = None;
  v_seg : forall b sz c, chdr s b = Some (sz, c) -> 4194304 <= b /\ b + sz <= 2 ^ 48 /\ 0 < sz /\ sz mod MB2 = 0 /\ (once = true \/ b mod MB2 = 0);
  v_apart : forall b sz c b' sz' c', chdr s b = Some (sz, c) -> chdr s b' = Some (sz', c') -> b <> b' -> outside b sz b' sz';
  v_live : forall b sz, In (b, sz) (clive s) -> exists c, chdr s b = Some (sz, c);
  v_work : forall t k b a, prog (cat s t) = Some (k, b, a) -> exists sz c, chdr s b = Some (sz, c) /\ b <= a <= b + sz /\ (a - b) mod MB2 = 0 /\
             (past (cat s t) = true -> a < b + sz);
  v_excl : forall t k b a sz, prog (cat s t) = Some (k, b, a) -> ~ In (b, sz) (clive s);
  v_excl2 : forall t t' k k' b a a', prog (cat s t) = Some (k, b, a) -> prog (cat s t') = Some (k', b, a') -> t = t';
  v_claim : forall b lo hi a, claim s b lo hi -> lo <= a < hi -> (a - b) mod MB2 = 0 -> ent s a = b;
  v_ent : forall a, ent s a <> 0 -> exists lo hi a', claim s (ent s a) lo hi /\ lo <= a' < hi /\ (a' - ent s a) mod MB2 = 0 /\ a' / MB2 = a / MB2;
  v_find : forall t, findok (clive s) (cat s t) }.

Ltac mb := unfold MB2, TB in *.
Lemma slots a a' : a / MB2 = a' / MB2 <-> a / TB = a' / TB /\ slot a = slot a'.
Proof. unfold slot. mb. lia. Qed.
Lemma ent_slot s a a' : a / MB2 = a' / MB2 -> ent s a = ent s a'.
Proof. intros H. apply slots in H as (H1 & H2). unfold ent, entry. rewrite H1, H2. reflexivity. Qed.
Lemma pow48 : 2 ^ 48 = 281474976710656. Proof. reflexivity. Qed.
Lemma get_id_ok a : 0 <= a < 2 ^ 48 -> get_id a = Ok (a / TB).
Proof. intros H. rewrite pow48 in H. unfold get_id, MAXREG. mb. destruct ((0 <=? a / 1099511627776) && (a / 1099511627776 <? 256)) eqn:E; [reflexivity|lia]. Qed.

Lemma slot_after e sz' b sz p a' : e <= a' < e + sz' -> (a' - e) mod MB2 = 0 -> sz' mod MB2 = 0 -> a' / MB2 = p / MB2 -> b <= p < b + sz -> outside e sz' b sz -> p < e.
Proof. unfold outside. mb. intros. assert (a' + 2097152 <= e + sz') by lia. lia. Qed.
Section S.
  Context (once : bool) (s : cst) (I : Inv once s).
  Lemma claim_seg b lo hi : claim s b lo hi -> exists sz c, chdr s b = Some (sz, c) /\ b <= lo /\ hi <= b + sz.
  Proof.
    intros [sz H|t a H|t a sz c H H2].
    - destruct (v_live _ _ I _ _ H) as (c & E). exists sz, c. split; [exact E|lia].
    - destruct (v_work _ _ I _ _ _ _ H) as (sz & c & E & K & _). exists sz, c. split; [exact E|lia].
    - destruct (v_work _ _ I _ _ _ _ H) as (sz' & c' & E & K & _). exists sz, c. split; [exact H2|lia].
  Qed.
  (** The entries of two segments are in different slots. *)
  Lemma slots_apart b sz c b' sz' c' a a' : chdr s b = Some (sz, c) -> chdr s b' = Some (sz', c') -> b <> b' -> b <= a < b + sz -> (a - b) mod MB2 = 0 ->
    b' <= a' < b' + sz' -> (a' - b') mod MB2 = 0 -> a / MB2 <> a' / MB2.
  Proof.
    intros H H' N Ha Hm Ha' Hm' E. destruct (v_seg _ _ I _ _ _ H) as (_ & _ & _ & K & _). destruct (v_seg _ _ I _ _ _ H') as (_ & _ & _ & K' & _).
    pose proof (v_apart _ _ I _ _ _ _ _ _ H H' N) as AP. unfold outside in AP. mb. lia.
  Qed.
  (** The slot of an address of a registered segment. *)
  Lemma own_entry b sz p : In (b, sz) (clive s) -> b <= p < b + sz -> ent s p = b \/ late b sz p /\ (ent s p = 0 \/ p < ent s p).
  Proof.
    intros HL Hp. destruct (v_live _ _ I _ _ HL) as (c & HS). destruct (v_seg _ _ I _ _ _ HS) as (S1 & S2 & S3 & S4 & _).
    set (a := b + (p - b) / MB2 * MB2). assert (Ha : b <= a <= p /\ p < a + MB2 /\ (a - b) mod MB2 = 0) by (unfold a; mb; lia). clearbody a.
    destruct (Z.eq_dec (a / MB2) (p / MB2)) as [E|E].
    { left. rewrite <- (ent_slot s a p E). apply (v_claim _ _ I b b (b + sz)); [constructor; exact HL|mb; lia|mb; lia]. }
    destruct (Z.eq_dec ((a + MB2) / MB2) (p / MB2)) as [E2|E2]; [destruct (Z.ltb_spec (a + MB2) (b + sz)) as [L|L]|].
    { left. rewrite <- (ent_slot s _ p E2). apply (v_claim _ _ I b b (b + sz)); [constructor; exact HL|mb; lia|mb; lia]. }
    all: assert (LT : late b sz p) by (intros x Hx Hm; mb; lia); right; split; [exact LT|].
    all: destruct (Z.eq_dec (ent s p) 0) as [Z0|Z0]; [left; exact Z0|right]; destruct (v_ent _ _ I p Z0) as (lo & hi & a' & C & A1 & A2 & A3);
         destruct (claim_seg _ _ _ C) as (sz' & c' & HS' & A4 & A5); destruct (v_seg _ _ I _ _ _ HS') as (T1 & T2 & T3 & T4 & _);
         destruct (Z.eq_dec (ent s p) b) as [Q|Q]; [exfalso; rewrite Q in *; rewrite HS in HS'; injection HS' as <- _; apply (LT a'); [clear - A1 A4 A5; lia|exact A2|exact A3]|];
         apply (slot_after (ent s p) sz' b sz p a'); [clear - A1 A4 A5; lia|exact A2|exact T4|exact A3|exact Hp|exact (v_apart _ _ I _ _ _ _ _ _ HS' HS Q)].
  Qed.
  Lemma back_entry b sz p : In (b, sz) (clive s) -> b <= p < b + sz -> late b sz p -> ent s (p - MB2) = b.
  Proof.
    intros HL Hp LT. destruct (v_live _ _ I _ _ HL) as (c & HS). destruct (v_seg _ _ I _ _ _ HS) as (S1 & S2 & S3 & S4 & _).
    set (a := b + (p - b) / MB2 * MB2). assert (Ha : b <= a <= p /\ p < a + MB2 /\ (a - b) mod MB2 = 0) by (unfold a; mb; lia). clearbody a.
    specialize (LT a ltac:(clear LT; mb; lia) ltac:(clear LT; mb; lia)). rewrite <- (ent_slot s a (p - MB2)) by (mb; lia).
    apply (v_claim _ _ I b b (b + sz)); [constructor; exact HL|mb; lia|mb; lia].
  Qed.
  Lemma aligned_entry b sz p : once = false -> In (b, sz) (clive s) -> b <= p < b + sz -> ent s p = b /\ ~ late b sz p.
  Proof.
    intros HO HL Hp. destruct (v_live _ _ I _ _ HL) as (c & HS). destruct (v_seg _ _ I _ _ _ HS) as (S1 & S2 & S3 & S4 & [S5|S5]); [congruence|].
    set (a := b + (p - b) / MB2 * MB2). assert (Ha : b <= a <= p /\ p < a + MB2 /\ (a - b) mod MB2 = 0) by (unfold a; mb; lia). clearbody a.
    assert (E : a / MB2 = p / MB2) by (mb; lia). split; [|intros LT; apply (LT a); [clear LT; mb; lia|clear LT; mb; lia|exact E]].
    rewrite <- (ent_slot s a p E). apply (v_claim _ _ I b b (b + sz)); [constructor; exact HL|mb; lia|mb; lia].
  Qed.
  Lemma live_low b sz p : In (b, sz) (clive s) -> b <= p < b + sz -> 4194304 <= p < 2 ^ 48.
  Proof. intros HL Hp. destruct (v_live _ _ I _ _ HL) as (c & HS). destruct (v_seg _ _ I _ _ _ HS) as (S1 & S2 & _). lia. Qed.
  Lemma live_uniq b sz sz' : In (b, sz) (clive s) -> In (b, sz') (clive s) -> sz = sz'.
  Proof. intros H H'. destruct (v_live _ _ I _ _ H) as (c & E). destruct (v_live _ _ I _ _ H') as (c' & E'). congruence. Qed.
End S.

Lemma fupd_same {A} (f : nat -> A) t v : fupd f t v t = v.
Proof. unfold fupd. rewrite Nat.eqb_refl. reflexivity. Qed.
Lemma fupd_other {A} (f : nat -> A) t v u : u <> t -> fupd f t v u = f u.
Proof. unfold fupd. destruct (Nat.eqb_spec u t); [contradiction|reflexivity]. Qed.

(** A thread moves on without touching the table. *)
Lemma inv_move once s t pl lk : Inv once s -> placeok pl = true -> prog pl = prog (cat s t) ->
  (inlock pl = true -> lk = true /\ forall u, u <> t -> inlock (cat s u) = false) ->
  (lk = clck s \/ forall u, u <> t -> inlock (cat s u) = false) ->
  (forall a r, region pl = Some (a, r) -> cregs s (a / TB) = Some r) -> (forall w, pl = PMap w -> cregs s (target w / TB) = None) ->
  (past pl = true -> past (cat s t) = true \/ forall k b a, prog pl = Some (k, b, a) -> exists sz c, chdr s b = Some (sz, c) /\ a < b + sz) ->
  findok (clive s) pl -> Inv once (go_to (with_lock s lk) t pl).
Proof.
  intros I H1 H2 H3 H4 H5 H6 H7 H8.
  assert (PR : forall u, prog (fupd (cat s) t pl u) = prog (cat s u)) by (intros u; unfold fupd; destruct (Nat.eqb_spec u t) as [->|]; [exact H2|reflexivity]).
  assert (CL : forall b lo hi, claim (go_to (with_lock s lk) t pl) b lo hi <-> claim s b lo hi).
  { intros b lo hi. split; intros [sz K|u a K|u a sz c K K2]; cbn in K; try (rewrite PR in K).
    - apply cl_live. exact K.
    - eapply cl_set; exact K.
    - eapply cl_unset; [exact K|exact K2].
    - apply cl_live. exact K.
    - apply (cl_set _ _ u a). cbn. rewrite PR. exact K.
    - apply (cl_unset _ _ u a sz c); [cbn; rewrite PR; exact K|exact K2]. }
  constructor; cbn [cregs ctabs cnext chdr cini clck cat clive go_to with_lock].
  - exact (v_ini _ _ I).
  - intros u. unfold fupd. destruct (Nat.eqb_spec u t); [exact H1|exact (v_place _ _ I u)].
  - intros u u'. unfold fupd. destruct (Nat.eqb_spec u t) as [->|N]; destruct (Nat.eqb_spec u' t) as [->|N']; intros K K'; try reflexivity.
    + destruct (H3 K) as (_ & X). rewrite (X u' N') in K'. discriminate.
    + destruct (H3 K') as (_ & X). rewrite (X u N) in K. discriminate.
    + exact (v_lock _ _ I _ _ K K').
  - intros u. unfold fupd. destruct (Nat.eqb_spec u t) as [->|N]; intros K; [exact (proj1 (H3 K))|]. destruct H4 as [->|X]; [exact (v_lock2 _ _ I _ K)|rewrite (X u N) in K; discriminate].
  - exact (v_next _ _ I).
  - exact (v_inj _ _ I).
  - intros u a r. unfold fupd. destruct (Nat.eqb_spec u t) as [->|N]; [apply H5|apply (v_reg _ _ I)].
  - intros u w. unfold fupd. destruct (Nat.eqb_spec u t) as [->|N]; [apply H6|apply (v_map _ _ I)].
  - exact (v_seg _ _ I).
  - exact (v_apart _ _ I).
  - exact (v_live _ _ I).
  - intros u k b a K. rewrite PR in K. destruct (v_work _ _ I _ _ _ _ K) as (sz & c & E & E1 & E2 & E3). exists sz, c. split; [exact E|]. split; [exact E1|]. split; [exact E2|].
    unfold fupd. destruct (Nat.eqb_spec u t) as [->|N]; [|exact E3]. intros P. destruct (H7 P) as [Q|Q]; [exact (E3 Q)|]. rewrite <- H2 in K. destruct (Q _ _ _ K) as (sz' & c' & E' & L). rewrite E in E'. injection E' as <- <-. exact L.
  - intros u k b a sz K. rewrite PR in K. exact (v_excl _ _ I _ _ _ _ _ K).
  - intros u u' k k' b a a' K K'. rewrite PR in K, K'. exact (v_excl2 _ _ I _ _ _ _ _ _ _ K K').
  - intros b lo hi a K. apply CL in K. exact (v_claim _ _ I _ _ _ _ K).
  - intros a K. destruct (v_ent _ _ I a K) as (lo & hi & a' & C & R). exists lo, hi, a'. split; [apply CL; exact C|exact R].
  - intros u. unfold fupd. destruct (Nat.eqb_spec u t) as [->|N]; [exact H8|exact (v_find _ _ I u)].
Qed.
Lemma inv_stay once s t pl : Inv once s -> placeok pl = true -> prog pl = prog (cat s t) -> inlock pl = false ->
  (forall a r, region pl = Some (a, r) -> cregs s (a / TB) = Some r) -> 
  (past pl = true -> past (cat s t) = true \/ forall k b a, prog pl = Some (k, b, a) -> exists sz c, chdr s b = Some (sz, c) /\ a < b + sz) ->
  findok (clive s) pl -> Inv once (go_to s t pl).
Proof.
  intros I H1 H2 H3 H4 H5 H6. change (go_to s t pl) with (go_to (with_lock s (clck s)) t pl). apply inv_move; try assumption.
  - rewrite H3. discriminate.
  - left. reflexivity.
  - intros w ->. discriminate.
Qed.

(** A new region header. *)
Lemma inv_new once s t w : Inv once s -> cat s t = PMap w -> Inv once (go_to (with_new s (target w / TB)) t (PUnlock w (cnext s))).
Proof.
  intros I E. pose proof (v_map _ _ I _ _ E) as NN. pose proof (v_place _ _ I t) as PO.
  assert (IL : forall u, u <> t -> inlock (cat s u) = false).
  { intros u N. destruct (inlock (cat s u)) eqn:K; [|reflexivity]. exfalso. apply N. apply (v_lock _ _ I); [exact K|rewrite E; reflexivity]. }
  assert (PR : forall u, prog (fupd (cat s) t (PUnlock w (cnext s)) u) = prog (cat s u)) by (intros u; unfold fupd; destruct (Nat.eqb_spec u t) as [->|]; [rewrite E; reflexivity|reflexivity]).
  set (s' := go_to (with_new s (target w / TB)) t (PUnlock w (cnext s))).
  assert (CL : forall b lo hi, claim s' b lo hi <-> claim s b lo hi).
  { intros b lo hi. split; intros [sz K|u a K|u a sz c K K2]; cbn in K; try (rewrite PR in K).
    - apply cl_live. exact K.
    - eapply cl_set; exact K.
    - eapply cl_unset; [exact K|exact K2].
    - apply cl_live. exact K.
    - apply (cl_set _ _ u a). cbn. rewrite PR. exact K.
    - apply (cl_unset _ _ u a sz c); [cbn; rewrite PR; exact K|exact K2]. }
  assert (RG : forall i r, cregs s i = Some r -> zupd (cregs s) (target w / TB) (Some (cnext s)) i = Some r).
  { intros i r K. unfold zupd. destruct (Z.eqb_spec i (target w / TB)) as [->|N]; [congruence|exact K]. }
  assert (EN : forall a, ent s' a = ent s a).
  { intros a. unfold ent, entry, s'. cbn. unfold zupd. destruct (Z.eqb_spec (a / TB) (target w / TB)) as [->|N].
    - rewrite NN, fupd_same. reflexivity.
    - destruct (cregs s (a / TB)) as [r|] eqn:K; [|reflexivity]. rewrite fupd_other; [reflexivity|]. pose proof (v_next _ _ I _ _ K). lia. }
  constructor; unfold s' in *; cbn [cregs ctabs cnext chdr cini clck cat clive go_to with_new].
  - exact (v_ini _ _ I).
  - intros u. unfold fupd. destruct (Nat.eqb_spec u t); [reflexivity|exact (v_place _ _ I u)].
  - intros u u'. unfold fupd. destruct (Nat.eqb_spec u t) as [->|N]; destruct (Nat.eqb_spec u' t) as [->|N']; intros K K'; try reflexivity.
    + rewrite (IL u' N') in K'. discriminate.
    + rewrite (IL u N) in K. discriminate.
    + exact (v_lock _ _ I _ _ K K').
  - intros u _. apply (v_lock2 _ _ I t). rewrite E. reflexivity.
  - intros i r. unfold zupd. destruct (Z.eqb_spec i (target w / TB)); intros K; [injection K as <-; lia|pose proof (v_next _ _ I _ _ K); lia].
  - intros i j r. unfold zupd. destruct (Z.eqb_spec i (target w / TB)) as [->|N]; destruct (Z.eqb_spec j (target w / TB)) as [->|N']; intros K K'; try reflexivity.
    + injection K as <-. pose proof (v_next _ _ I _ _ K'). lia.
    + injection K' as <-. pose proof (v_next _ _ I _ _ K). lia.
    + exact (v_inj _ _ I _ _ _ K K').
  - intros u a r. unfold fupd. destruct (Nat.eqb_spec u t) as [->|N].
    + cbn. intros K. injection K as <- <-. unfold zupd. rewrite Z.eqb_refl. reflexivity.
    + intros K. apply RG. exact (v_reg _ _ I _ _ _ K).
  - intros u w'. unfold fupd. destruct (Nat.eqb_spec u t) as [->|N]; [discriminate|]. intros K. exfalso. specialize (IL u N). rewrite K in IL. discriminate.
  - exact (v_seg _ _ I).
  - exact (v_apart _ _ I).
  - exact (v_live _ _ I).
  - intros u k b a K. rewrite PR in K. destruct (v_work _ _ I _ _ _ _ K) as (sz & c & E0 & E1 & E2 & E3). exists sz, c. split; [exact E0|]. split; [exact E1|]. split; [exact E2|].
    unfold fupd. destruct (Nat.eqb_spec u t) as [->|N]; [|exact E3]. intros _. apply E3. rewrite E. reflexivity.
  - intros u k b a sz K. rewrite PR in K. exact (v_excl _ _ I _ _ _ _ _ K).
  - intros u u' k k' b a a' K K'. rewrite PR in K, K'. exact (v_excl2 _ _ I _ _ _ _ _ _ _ K K').
  - intros b lo hi a K. apply CL in K. rewrite EN. exact (v_claim _ _ I _ _ _ _ K).
  - intros a K. rewrite EN in *. destruct (v_ent _ _ I a K) as (lo & hi & a' & C & R). exists lo, hi, a'. split; [apply CL; exact C|exact R].
  - intros u. unfold fupd. destruct (Nat.eqb_spec u t) as [->|N]; [|exact (v_find _ _ I u)]. pose proof (v_find _ _ I t) as F. rewrite E in F. intros p Hp.
    destruct (F p) as (b & sz & F1 & F2 & F3 & F4); [destruct w; exact Hp|]. exists b, sz. split; [exact F1|]. split; [exact F2|]. split; [|exact Logic.I]. destruct w; exact F3.
Qed.

(** A write in an entry. *)
Lemma ent_write once s t r a v pl : Inv once s -> cregs s (a / TB) = Some r -> forall a', ent (go_to (with_entry s r (slot a) v) t pl) a' = if a' / MB2 =? a / MB2 then v else ent s a'.
Proof.
  intros I H a'. unfold ent, entry. cbn. destruct (Z.eqb_spec (a' / MB2) (a / MB2)) as [E|E].
  - apply slots in E as (E1 & E2). rewrite E1, H, fupd_same. unfold zupd. rewrite E2, Z.eqb_refl. reflexivity.
  - destruct (cregs s (a' / TB)) as [r'|] eqn:K; [|reflexivity]. unfold fupd. destruct (Nat.eqb_spec r' r) as [->|N]; [|reflexivity].
    pose proof (v_inj _ _ I _ _ _ K H) as Q. unfold zupd. destruct (Z.eqb_spec (slot a') (slot a)) as [Q2|Q2]; [|reflexivity]. exfalso. apply E. apply slots. auto.
Qed.
Lemma inv_write once s t w r k b a v : Inv once s -> cat s t = PWrite w r -> of_work w = Some (k, b, a) -> v = (if k then b else 0) ->
  Inv once (go_to (with_entry s r (slot a) v) t (PLoop (if k then WSet b (a + MB2) else WUnset b (a + MB2)))).
Proof.
  intros I E Ew Ev. set (pl := PLoop _). set (s' := go_to (with_entry s r (slot a) v) t pl).
  assert (Et : target w = a) by (destruct w; cbn in Ew |- *; congruence).
  assert (RG : cregs s (a / TB) = Some r) by (rewrite <- Et; apply (v_reg _ _ I t); rewrite E; reflexivity).
  assert (PT : prog (cat s t) = Some (k, b, a)) by (rewrite E; exact Ew).
  destruct (v_work _ _ I _ _ _ _ PT) as (sz & c & W1 & W2 & W3 & W4). rewrite E in W4. specialize (W4 eq_refl).
  destruct (v_seg _ _ I _ _ _ W1) as (G1 & G2 & G3 & G4 & G5).
  assert (PL : prog pl = Some (k, b, a + MB2)) by (unfold pl; destruct k; reflexivity).
  pose proof (ent_write once s t r a v pl I RG) as EN. fold s' in EN.
  assert (OT : forall u k' b' a', u <> t -> prog (cat s u) = Some (k', b', a') -> b' <> b).
  { intros u k' b' a' N K ->. apply N. exact (v_excl2 _ _ I _ _ _ _ _ _ _ K PT). }
  (* claims of the other segments are the same, and their entries are elsewhere *)
  assert (CO : forall b' lo hi, b' <> b -> claim s' b' lo hi -> claim s b' lo hi).
  { intros b' lo hi N [z K|u x K|u x z d K K2]; cbn in K.
    - apply cl_live. exact K.
    - unfold fupd in K. destruct (Nat.eqb_spec u t) as [->|Nu]; [rewrite PL in K; congruence|]. eapply cl_set. exact K.
    - unfold fupd in K. destruct (Nat.eqb_spec u t) as [->|Nu]; [rewrite PL in K; congruence|]. eapply cl_unset; [exact K|exact K2]. }
  assert (CO' : forall b' lo hi, b' <> b -> claim s b' lo hi -> claim s' b' lo hi).
  { intros b' lo hi N [z K|u x K|u x z d K K2].
    - apply cl_live. exact K.
    - assert (Nu : u <> t) by (intros ->; rewrite PT in K; congruence). apply (cl_set _ _ u x). cbn. rewrite fupd_other by exact Nu. exact K.
    - assert (Nu : u <> t) by (intros ->; rewrite PT in K; congruence). apply (cl_unset _ _ u x z d); [cbn; rewrite fupd_other by exact Nu; exact K|exact K2]. }
  assert (CB : forall lo hi, claim s' b lo hi -> (k = true /\ lo = b /\ hi = a + MB2) \/ (k = false /\ lo = a + MB2 /\ hi = b + sz)).
  { intros lo hi [z K|u x K|u x z d K K2]; cbn in K.
    - exfalso. exact (v_excl _ _ I _ _ _ _ _ PT K).
    - unfold fupd in K. destruct (Nat.eqb_spec u t) as [->|Nu]; [rewrite PL in K; injection K as -> <-; left; auto|]. exfalso. exact (OT _ _ _ _ Nu K eq_refl).
    - cbn in K2. rewrite W1 in K2. injection K2 as <- <-. unfold fupd in K. destruct (Nat.eqb_spec u t) as [->|Nu]; [rewrite PL in K; injection K as -> <-; right; auto|]. exfalso. exact (OT _ _ _ _ Nu K eq_refl). }
  assert (CT : k = true -> claim s b b a) by (intros ->; eapply cl_set; exact PT).
  assert (CT' : k = true -> claim s' b b (a + MB2)) by (intros ->; apply (cl_set _ _ t); cbn; rewrite fupd_same; exact PL).
  assert (CF : k = false -> claim s b a (b + sz)) by (intros ->; eapply cl_unset; [exact PT|exact W1]).
  assert (CF' : k = false -> claim s' b (a + MB2) (b + sz)) by (intros ->; apply (cl_unset _ _ t _ sz c); [cbn; rewrite fupd_same; exact PL|exact W1]).
  constructor; unfold s'; cbn [cregs ctabs cnext chdr cini clck cat clive go_to with_entry].
  - exact (v_ini _ _ I).
  - intros u. unfold fupd. destruct (Nat.eqb_spec u t); [unfold pl; destruct k; reflexivity|exact (v_place _ _ I u)].
  - intros u u'. unfold fupd. destruct (Nat.eqb_spec u t) as [->|N]; [discriminate|]. destruct (Nat.eqb_spec u' t) as [->|N']; [discriminate|]. apply (v_lock _ _ I).
  - intros u. unfold fupd. destruct (Nat.eqb_spec u t) as [->|N]; [discriminate|]. apply (v_lock2 _ _ I).
  - exact (v_next _ _ I).
  - exact (v_inj _ _ I).
  - intros u x y. unfold fupd. destruct (Nat.eqb_spec u t) as [->|N]; [discriminate|]. apply (v_reg _ _ I).
  - intros u x. unfold fupd. destruct (Nat.eqb_spec u t) as [->|N]; [discriminate|]. apply (v_map _ _ I).
  - exact (v_seg _ _ I).
  - exact (v_apart _ _ I).
  - exact (v_live _ _ I).
  - intros u k' b' a'. unfold fupd. destruct (Nat.eqb_spec u t) as [->|N]; [|apply (v_work _ _ I)]. rewrite PL. intros K. injection K as <- <- <-.
    exists sz, c. split; [exact W1|]. split; [clear - W2 W3 W4 G4; mb; lia|]. split; [clear - W3; mb; lia|]. discriminate.
  - intros u k' b' a' z. unfold fupd. destruct (Nat.eqb_spec u t) as [->|N]; [|apply (v_excl _ _ I)]. rewrite PL. intros K. injection K as <- <- <-. exact (v_excl _ _ I _ _ _ _ _ PT).
  - intros u u' k1 k2 b' a1 a2. unfold fupd. destruct (Nat.eqb_spec u t) as [->|N]; destruct (Nat.eqb_spec u' t) as [->|N']; intros K K'; try reflexivity.
    + rewrite PL in K. injection K as <- <- <-. exfalso. exact (OT _ _ _ _ N' K' eq_refl).
    + rewrite PL in K'. injection K' as <- <- <-. exfalso. exact (OT _ _ _ _ N K eq_refl).
    + exact (v_excl2 _ _ I _ _ _ _ _ _ _ K K').
  - intros b' lo hi x C Hx Hm. rewrite EN. destruct (Z.eq_dec b' b) as [->|N].
    + destruct (CB _ _ C) as [(Ek & -> & ->)|(Ek & -> & ->)].
      * destruct (Z.eqb_spec (x / MB2) (a / MB2)) as [Q|Q]; [rewrite Ev, Ek; reflexivity|].
        apply (v_claim _ _ I b b a); [exact (CT Ek)|clear - Hx Hm Q W3; mb; lia|exact Hm].
      * destruct (Z.eqb_spec (x / MB2) (a / MB2)) as [Q|Q]; [exfalso; clear - Hx Hm Q W3; mb; lia|].
        apply (v_claim _ _ I b a (b + sz)); [exact (CF Ek)|clear - Hx; mb; lia|exact Hm].
    + apply (CO _ _ _ N) in C. destruct (claim_seg _ _ I _ _ _ C) as (z & d & S1 & S2 & S3).
      pose proof (slots_apart _ _ I _ _ _ _ _ _ x a S1 W1 N (conj (Z.le_trans _ _ _ S2 (proj1 Hx)) (Z.lt_le_trans _ _ _ (proj2 Hx) S3)) Hm (conj (proj1 W2) W4) W3) as SA. destruct (Z.eqb_spec (x / MB2) (a / MB2)); [contradiction|].
      exact (v_claim _ _ I _ _ _ _ C Hx Hm).
  - intros x K. rewrite EN in K |- *. destruct (Z.eqb_spec (x / MB2) (a / MB2)) as [Q|Q].
    + assert (Ek : k = true) by (destruct k; [reflexivity|congruence]). assert (Ev' : v = b) by (rewrite Ev, Ek; reflexivity). exists b, (a + MB2), a. fold s'. rewrite Ev'. split; [exact (CT' Ek)|].
      split; [clear - W2; mb; lia|]. split; [exact W3|symmetry; exact Q].
    + destruct (v_ent _ _ I x K) as (lo & hi & a' & C & A1 & A2 & A3). destruct (Z.eq_dec (ent s x) b) as [Eb|N].
      * rewrite Eb in *. assert (KK : k = true \/ k = false) by (destruct k; auto). destruct KK as [Ek|Ek].
        -- assert (lo = b /\ hi = a) as (-> & ->).
           { destruct C as [z D|u y D|u y z d D D2]; [exfalso; exact (v_excl _ _ I _ _ _ _ _ PT D)| |]; pose proof (v_excl2 _ _ I _ _ _ _ _ _ _ D PT) as EU; subst u; rewrite PT in D.
             - injection D as _ <-. auto.
             - rewrite Ek in D. discriminate. }
           exists b, (a + MB2), a'. split; [exact (CT' Ek)|]. split; [clear - A1; mb; lia|]. auto.
        -- assert (lo = a /\ hi = b + sz) as (-> & ->).
           { destruct C as [z D|u y D|u y z d D D2]; [exfalso; exact (v_excl _ _ I _ _ _ _ _ PT D)| |]; pose proof (v_excl2 _ _ I _ _ _ _ _ _ _ D PT) as EU; subst u; rewrite PT in D.
             - rewrite Ek in D. discriminate.
             - injection D as _ <-. rewrite W1 in D2. injection D2 as <- _. auto. }
           exists (a + MB2), (b + sz), a'. split; [exact (CF' Ek)|]. split; [|auto]. assert (a' <> a) by (intros ->; congruence). clear - A1 A2 W3 H. mb. lia.
      * exists lo, hi, a'. split; [apply (CO' _ _ _ N); exact C|]. auto.
  - intros u. unfold fupd. destruct (Nat.eqb_spec u t) as [->|N]; [|exact (v_find _ _ I u)]. intros p Hp. discriminate.
Qed.

(** A step that changes only the list of the registered segments or the headers of the segments. *)
Lemma inv_gen once s s' t pl : Inv once s -> cregs s' = cregs s -> ctabs s' = ctabs s -> cnext s' = cnext s -> cini s' = cini s -> clck s' = clck s ->
  cat s' = fupd (cat s) t pl -> inlock pl = false -> region pl = None -> placeok pl = true -> looking pl = None ->
  (forall b sz c, chdr s' b = Some (sz, c) -> 4194304 <= b /\ b + sz <= 2 ^ 48 /\ 0 < sz /\ sz mod MB2 = 0 /\ (once = true \/ b mod MB2 = 0)) ->
  (forall b sz c b' sz' c', chdr s' b = Some (sz, c) -> chdr s' b' = Some (sz', c') -> b <> b' -> outside b sz b' sz') ->
  (forall b sz, In (b, sz) (clive s') -> exists c, chdr s' b = Some (sz, c)) ->
  (forall u k b a, prog (cat s' u) = Some (k, b, a) -> exists sz c, chdr s' b = Some (sz, c) /\ b <= a <= b + sz /\ (a - b) mod MB2 = 0 /\ (past (cat s' u) = true -> a < b + sz)) ->
  (forall u k b a sz, prog (cat s' u) = Some (k, b, a) -> ~ In (b, sz) (clive s')) ->
  (forall u u' k k' b a a', prog (cat s' u) = Some (k, b, a) -> prog (cat s' u') = Some (k', b, a') -> u = u') ->
  (forall b lo hi, lo < hi -> claim s' b lo hi -> claim s b lo hi) -> (forall b lo hi, lo < hi -> claim s b lo hi -> claim s' b lo hi) ->
  (forall u, u <> t -> findok (clive s') (cat s u)) -> Inv once s'.
Proof.
  intros I E1 E2 E3 E4 E5 E6 H1 H2 H3 H4 K1 K2 K3 K4 K5 K6 C1 C2 F.
  assert (EN : forall a, ent s' a = ent s a) by (intros a; unfold ent, entry; rewrite E1, E2; reflexivity).
  assert (IL : forall u, inlock (cat s' u) = true -> u <> t /\ inlock (cat s u) = true).
  { intros u. rewrite E6. unfold fupd. destruct (Nat.eqb_spec u t) as [->|N]; [congruence|auto]. }
  constructor; try assumption.
  - rewrite E4. exact (v_ini _ _ I).
  - intros u. rewrite E6. unfold fupd. destruct (Nat.eqb_spec u t); [exact H3|exact (v_place _ _ I u)].
  - intros u u' A B. apply (v_lock _ _ I); [apply IL; exact A|apply IL; exact B].
  - intros u A. rewrite E5. apply (v_lock2 _ _ I u). apply IL. exact A.
  - rewrite E1, E3. exact (v_next _ _ I).
  - rewrite E1. exact (v_inj _ _ I).
  - intros u a r. rewrite E1, E6. unfold fupd. destruct (Nat.eqb_spec u t) as [->|N]; [rewrite H2; discriminate|apply (v_reg _ _ I)].
  - intros u w. rewrite E1, E6. unfold fupd. destruct (Nat.eqb_spec u t) as [->|N]; [intros ->; discriminate|apply (v_map _ _ I)].
  - intros b lo hi a C A. rewrite EN. apply C1 in C; [|lia]. exact (v_claim _ _ I _ _ _ _ C A).
  - intros a A. rewrite EN in *. destruct (v_ent _ _ I a A) as (lo & hi & a' & C & R1 & R2). exists lo, hi, a'. split; [apply C2; [lia|exact C]|auto].
  - intros u. rewrite E6. unfold fupd. destruct (Nat.eqb_spec u t) as [->|N]; [intros p; rewrite H4; discriminate|exact (F u N)].
Qed.

Ltac same u t := unfold fupd in *; destruct (Nat.eqb_spec u t) as [->|?].
(** The end of a registration. *)
Lemma inv_set_end once s t b sz c : Inv once s -> cat s t = PLoop (WSet b (b + sz)) -> chdr s b = Some (sz, c) -> Inv once (go_to (with_live s ((b, sz) :: clive s)) t PDone).
Proof.
  intros I E H. assert (PT : prog (cat s t) = Some (true, b, b + sz)) by (rewrite E; reflexivity).
  eapply (inv_gen once s _ t PDone I); try reflexivity; cbn [cregs ctabs cnext chdr cini clck cat clive go_to with_live].
  - exact (v_seg _ _ I).
  - exact (v_apart _ _ I).
  - intros b' z [K|K]; [injection K as <- <-; exists c; exact H|exact (v_live _ _ I _ _ K)].
  - intros u k b' a. same u t; [discriminate|apply (v_work _ _ I)].
  - intros u k b' a z. same u t; [discriminate|]. intros K [Q|Q]; [injection Q as <- <-; apply n; exact (v_excl2 _ _ I _ _ _ _ _ _ _ K PT)|exact (v_excl _ _ I _ _ _ _ _ K Q)].
  - intros u u' k k' b' a a'. same u t; [discriminate|]. destruct (Nat.eqb_spec u' t) as [->|?]; [discriminate|apply (v_excl2 _ _ I)].
  - intros b' lo hi _ [z K|u a K|u a z d K K2]; cbn in K.
    + destruct K as [K|K]; [injection K as <- <-; eapply cl_set; exact PT|apply cl_live; exact K].
    + same u t; [discriminate|]. eapply cl_set; exact K.
    + same u t; [discriminate|]. eapply cl_unset; [exact K|exact K2].
  - intros b' lo hi _ [z K|u a K|u a z d K K2].
    + apply cl_live. right. exact K.
    + destruct (Nat.eq_dec u t) as [->|N]; [rewrite PT in K; injection K as <- <-; apply cl_live; left; reflexivity|]. apply (cl_set _ _ u). cbn. rewrite fupd_other by exact N. exact K.
    + destruct (Nat.eq_dec u t) as [->|N]; [rewrite PT in K; discriminate|]. apply (cl_unset _ _ u a z d); [cbn; rewrite fupd_other by exact N; exact K|exact K2].
  - intros u N p Hp. destruct (v_find _ _ I u p Hp) as (x & y & L & R). exists x, y. split; [right; exact L|exact R].
Qed.
(** The end of an unregistration. *)
Lemma inv_unset_end once s t b sz c : Inv once s -> cat s t = PLoop (WUnset b (b + sz)) -> chdr s b = Some (sz, c) -> Inv once (go_to (with_hdr s b None) t PDone).
Proof.
  intros I E H. assert (PT : prog (cat s t) = Some (false, b, b + sz)) by (rewrite E; reflexivity).
  assert (HO : forall x, x <> b -> zupd (chdr s) b None x = chdr s x) by (intros x N; unfold zupd; destruct (Z.eqb_spec x b); [contradiction|reflexivity]).
  assert (HN : forall x h, zupd (chdr s) b None x = Some h -> x <> b /\ chdr s x = Some h) by (intros x h; unfold zupd; destruct (Z.eqb_spec x b); [discriminate|auto]).
  assert (OT : forall u k b' a, u <> t -> prog (cat s u) = Some (k, b', a) -> b' <> b) by (intros u k b' a N K ->; apply N; exact (v_excl2 _ _ I _ _ _ _ _ _ _ K PT)).
  eapply (inv_gen once s _ t PDone I); try reflexivity; cbn [cregs ctabs cnext chdr cini clck cat clive go_to with_hdr].
  - intros x z d K. apply HN in K as (_ & K). exact (v_seg _ _ I _ _ _ K).
  - intros x z d x' z' d' K K'. apply HN in K as (_ & K), K' as (_ & K'). exact (v_apart _ _ I _ _ _ _ _ _ K K').
  - intros x z K. rewrite HO by (intros ->; exact (v_excl _ _ I _ _ _ _ _ PT K)). exact (v_live _ _ I _ _ K).
  - intros u k b' a. same u t; [discriminate|]. intros K. rewrite HO by (exact (OT _ _ _ _ n K)). exact (v_work _ _ I _ _ _ _ K).
  - intros u k b' a z. same u t; [discriminate|]. apply (v_excl _ _ I).
  - intros u u' k k' b' a a'. same u t; [discriminate|]. destruct (Nat.eqb_spec u' t) as [->|?]; [discriminate|apply (v_excl2 _ _ I)].
  - intros b' lo hi _ [z K|u a K|u a z d K K2]; cbn in K.
    + apply cl_live; exact K.
    + same u t; [discriminate|]. eapply cl_set; exact K.
    + same u t; [discriminate|]. cbn in K2. apply HN in K2 as (_ & K2). eapply cl_unset; [exact K|exact K2].
  - intros b' lo hi L C; revert L; destruct C as [z K|u a K|u a z d K K2]; intros L.
    + apply cl_live. exact K.
    + destruct (Nat.eq_dec u t) as [->|N]; [rewrite PT in K; discriminate|]. apply (cl_set _ _ u). cbn. rewrite fupd_other by exact N. exact K.
    + destruct (Nat.eq_dec u t) as [->|N]; [rewrite PT in K; injection K as <- <-; rewrite H in K2; injection K2 as <- <-; lia|].
      apply (cl_unset _ _ u a z d); [cbn; rewrite fupd_other by exact N; exact K|cbn; rewrite HO by (exact (OT _ _ _ _ N K)); exact K2].
  - intros u N. exact (v_find _ _ I u).
Qed.
Lemma rest_prog p : resting p = true -> prog p = None.
Proof. destruct p; cbn; congruence. Qed.
(** A registration starts. *)
Lemma inv_reg once s t c b sz : Inv once s -> cvalid once s (CReg t c b sz) -> Inv once (go_to (with_hdr s b (Some (sz, c))) t (PLoop (WSet b b))).
Proof.
  intros I (R & V1 & V2 & V3 & V4 & V5 & V6). assert (PT : prog (cat s t) = None) by (apply rest_prog; exact R).
  assert (HB : chdr s b = None) by (destruct (chdr s b) as [[z d]|] eqn:K; [|reflexivity]; pose proof (v_seg _ _ I _ _ _ K); destruct (V6 _ _ _ K); lia).
  assert (HO : forall x, x <> b -> zupd (chdr s) b (Some (sz, c)) x = chdr s x) by (intros x N; unfold zupd; destruct (Z.eqb_spec x b); [contradiction|reflexivity]).
  assert (HS : zupd (chdr s) b (Some (sz, c)) b = Some (sz, c)) by (unfold zupd; rewrite Z.eqb_refl; reflexivity).
  assert (LN : forall x z, In (x, z) (clive s) -> x <> b) by (intros x z K ->; destruct (v_live _ _ I _ _ K) as (d & K'); congruence).
  assert (WN : forall u k x a, prog (cat s u) = Some (k, x, a) -> x <> b) by (intros u k x a K ->; destruct (v_work _ _ I _ _ _ _ K) as (z & d & K' & _); congruence).
  eapply (inv_gen once s _ t (PLoop (WSet b b)) I); try reflexivity; cbn [cregs ctabs cnext chdr cini clck cat clive go_to with_hdr].
  - intros x z d. destruct (Z.eq_dec x b) as [->|N]; [rewrite HS; intros K; injection K as <- <-; auto|rewrite HO by exact N; exact (v_seg _ _ I x z d)].
  - intros x z d x' z' d' K K' N. destruct (Z.eq_dec x b) as [->|N1]; [|rewrite HO in K by exact N1]; (destruct (Z.eq_dec x' b) as [->|N2]; [|rewrite HO in K' by exact N2]).
    + congruence.
    + rewrite HS in K. injection K as <- <-. exact (V6 _ _ _ K').
    + rewrite HS in K'. injection K' as <- <-. destruct (V6 _ _ _ K); unfold outside; lia.
    + exact (v_apart _ _ I _ _ _ _ _ _ K K' N).
  - intros x z K. rewrite HO by (exact (LN _ _ K)). exact (v_live _ _ I _ _ K).
  - intros u k x a. same u t; [|intros K; rewrite HO by (exact (WN _ _ _ _ K)); exact (v_work _ _ I _ _ _ _ K)].
    intros K. injection K as <- <- <-. exists sz, c. split; [exact HS|]. split; [lia|]. split; [rewrite Z.sub_diag; reflexivity|discriminate].
  - intros u k x a z. same u t; [|apply (v_excl _ _ I)]. intros K Q. injection K as <- <- <-. exact (LN _ _ Q eq_refl).
  - intros u u' k k' x a a'. same u t; (destruct (Nat.eqb_spec u' t) as [->|?]); intros K K'; try reflexivity.
    + injection K as <- <- <-. exfalso. exact (WN _ _ _ _ K' eq_refl).
    + injection K' as <- <- <-. exfalso. exact (WN _ _ _ _ K eq_refl).
    + exact (v_excl2 _ _ I _ _ _ _ _ _ _ K K').
  - intros x lo hi L C; revert L; destruct C as [z K|u a K|u a z d K K2]; intros L; cbn in K.
    + apply cl_live; exact K.
    + same u t; [injection K as <- <-; lia|]. eapply cl_set; exact K.
    + same u t; [discriminate|]. cbn in K2. rewrite HO in K2 by (exact (WN _ _ _ _ K)). eapply cl_unset; [exact K|exact K2].
  - intros x lo hi L C; revert L; destruct C as [z K|u a K|u a z d K K2]; intros L.
    + apply cl_live. exact K.
    + assert (N : u <> t) by (intros ->; congruence). apply (cl_set _ _ u). cbn. rewrite fupd_other by exact N. exact K.
    + assert (N : u <> t) by (intros ->; congruence). apply (cl_unset _ _ u a z d); [cbn; rewrite fupd_other by exact N; exact K|cbn; rewrite HO by (exact (WN _ _ _ _ K)); exact K2].
  - intros u N. exact (v_find _ _ I u).
Qed.
(** An unregistration starts. *)
Lemma inv_unreg once s t b : Inv once s -> cvalid once s (CUnreg t b) ->
  Inv once (go_to (with_live s (filter (fun '(y, _) => negb (y =? b)) (clive s))) t (PLoop (WUnset b b))).
Proof.
  intros I (R & sz & HL & NL). assert (PT : prog (cat s t) = None) by (apply rest_prog; exact R).
  destruct (v_live _ _ I _ _ HL) as (c & HB). pose proof (v_seg _ _ I _ _ _ HB) as SG.
  assert (FI : forall x z, In (x, z) (filter (fun '(y, _) => negb (y =? b)) (clive s)) <-> In (x, z) (clive s) /\ x <> b).
  { intros x z. rewrite filter_In. destruct (Z.eqb_spec x b); cbn; intuition congruence. }
  assert (WN : forall u k x a, prog (cat s u) = Some (k, x, a) -> x <> b) by (intros u k x a K ->; exact (v_excl _ _ I _ _ _ _ _ K HL)).
  eapply (inv_gen once s _ t (PLoop (WUnset b b)) I); try reflexivity; cbn [cregs ctabs cnext chdr cini clck cat clive go_to with_live].
  - exact (v_seg _ _ I).
  - exact (v_apart _ _ I).
  - intros x z K. apply FI in K as (K & _). exact (v_live _ _ I _ _ K).
  - intros u k x a. same u t; [|apply (v_work _ _ I)].
    intros K. injection K as <- <- <-. exists sz, c. split; [exact HB|]. split; [lia|]. split; [rewrite Z.sub_diag; reflexivity|discriminate].
  - intros u k x a z. same u t; intros K Q; apply FI in Q as (Q & N); [cbn in K; congruence|]. exact (v_excl _ _ I _ _ _ _ _ K Q).
  - intros u u' k k' x a a'. same u t; (destruct (Nat.eqb_spec u' t) as [->|?]); intros K K'; try reflexivity.
    + injection K as <- <- <-. exfalso. exact (WN _ _ _ _ K' eq_refl).
    + injection K' as <- <- <-. exfalso. exact (WN _ _ _ _ K eq_refl).
    + exact (v_excl2 _ _ I _ _ _ _ _ _ _ K K').
  - intros x lo hi L C; revert L; destruct C as [z K|u a K|u a z d K K2]; intros L; cbn in K.
    + apply FI in K as (K & _). apply cl_live; exact K.
    + same u t; [discriminate|]. eapply cl_set; exact K.
    + same u t; [|eapply cl_unset; [exact K|exact K2]]. injection K as <- <-. cbn in K2. rewrite HB in K2. injection K2 as <- <-. apply cl_live. exact HL.
  - intros x lo hi L C; revert L; destruct C as [z K|u a K|u a z d K K2]; intros L.
    + destruct (Z.eq_dec x b) as [->|N]; [|apply cl_live; cbn; apply FI; auto]. rewrite (live_uniq _ _ I _ _ _ K HL). apply (cl_unset _ _ t b sz c); [cbn; rewrite fupd_same; reflexivity|exact HB].
    + assert (N : u <> t) by (intros ->; congruence). apply (cl_set _ _ u). cbn. rewrite fupd_other by exact N. exact K.
    + assert (N : u <> t) by (intros ->; congruence). apply (cl_unset _ _ u a z d); [cbn; rewrite fupd_other by exact N; exact K|exact K2].
  - intros u N p Hp. destruct (v_find _ _ I u p Hp) as (x & y & L & Q1 & Q2). exists x, y. split; [|auto]. apply FI. split; [exact L|]. intros ->.
    rewrite (live_uniq _ _ I _ _ _ L HL) in *. exact (NL u p Hp Q1).
Qed.

Lemma ent_reg once s t a r : Inv once s -> region (cat s t) = Some (a, r) -> entry s r a = ent s a.
Proof. intros I H. unfold ent. rewrite (v_reg _ _ I _ _ _ H). reflexivity. Qed.
Lemma findok_same L pl pl' : findok L pl -> (forall p, looking pl' = Some p -> looking pl = Some p) -> (back pl' = true -> back pl = true) -> (forall b, known b pl') -> findok L pl'.
Proof. intros F H1 H2 H3 p Hp. destruct (F p (H1 p Hp)) as (b & sz & A & B & C & _). exists b, sz. split; [exact A|]. split; [exact B|]. split; [intros K; exact (C (H2 K))|apply H3]. Qed.
Lemma findok_none L pl : looking pl = None -> findok L pl.
Proof. intros H p Hp. congruence. Qed.
Lemma add64_low a b : 0 <= a -> 0 <= b -> a + b <= 2 ^ 48 -> add64 a b = a + b.
Proof. intros A B C. rewrite pow48 in C. apply add64_small. pose proof W64_val. lia. Qed.
Lemma tgt once s t w : Inv once s -> prog (cat s t) = of_work w -> past (cat s t) = true -> looking (cat s t) = (match w with WFind p | WBack p => Some p | _ => None end) -> 0 <= target w < 2 ^ 48.
Proof.
  intros I H1 H2 H3. destruct w as [b a|b a|p|p]; cbn in *.
  1,2: destruct (v_work _ _ I _ _ _ _ H1) as (sz & c & W1 & W2 & W3 & W4); specialize (W4 H2); destruct (v_seg _ _ I _ _ _ W1) as (G1 & G2 & _); lia.
  all: destruct (v_find _ _ I t p H3) as (b & sz & L & R & _); pose proof (live_low _ _ I _ _ _ L R); mb; lia.
Qed.
Lemma free_slot once s t b a : Inv once s -> prog (cat s t) = Some (true, b, a) -> past (cat s t) = true -> ent s a = 0.
Proof.
  intros I H P. destruct (v_work _ _ I _ _ _ _ H) as (sz & c & W1 & W2 & W3 & W4). specialize (W4 P).
  destruct (Z.eq_dec (ent s a) 0) as [E|E]; [exact E|exfalso]. destruct (v_ent _ _ I a E) as (lo & hi & a' & C & A1 & A2 & A3).
  destruct (claim_seg _ _ I _ _ _ C) as (z & d & S1 & S2 & S3). destruct (Z.eq_dec (ent s a) b) as [Q|Q].
  - rewrite Q in *. assert (lo = b /\ hi = a) as (-> & ->).
    { destruct C as [y D|u y D|u y y' d' D D2]; [exfalso; exact (v_excl _ _ I _ _ _ _ _ H D)| |]; pose proof (v_excl2 _ _ I _ _ _ _ _ _ _ D H) as EU; subst u; rewrite H in D; [|discriminate]. injection D as <-. auto. }
    clear - A1 A2 A3 W3. mb. lia.
  - apply (slots_apart _ _ I _ _ _ _ _ _ a' a S1 W1 Q); try assumption; [clear - A1 S2 S3; lia|clear - W2 W4; lia].
Qed.
Lemma late_start b sz p : 0 < sz -> b <= p -> late b sz p -> b < p.
Proof. intros S L H. destruct (Z.eq_dec b p) as [->|N]; [|lia]. exfalso. apply (H p); [lia|rewrite Z.sub_diag; reflexivity|reflexivity]. Qed.

Ltac stay := apply inv_stay; [assumption|reflexivity| | | | |].
Lemma stay_w once s t pl : Inv once s -> placeok pl = true -> prog pl = prog (cat s t) -> inlock pl = false -> past (cat s t) = true ->
  (forall a r, region pl = Some (a, r) -> cregs s (a / TB) = Some r) -> findok (clive s) pl -> Inv once (go_to s t pl).
Proof. intros. apply inv_stay; auto. Qed.
(** Each access of a thread succeeds and keeps the invariant. *)
Lemma cgo_ok once s t : Inv once s -> exists s', cgo once t s = Ok s' /\ Inv once s'.
Proof.
  intros I. unfold cgo. pose proof (v_place _ _ I t) as PO. pose proof (v_find _ _ I t) as FO. pose proof (tgt once s t) as TG. pose proof (fun a r => v_reg _ _ I t a r) as RG.
  pose proof (fun a r => ent_reg once s t a r I) as ER. pose proof (fun b a => free_slot once s t b a I) as FS. pose proof (fun k b a => v_work _ _ I t k b a) as WK.
  destruct (cat s t) eqn:E; cbn in PO; try discriminate PO.
  - exists s. auto.
  - exists s. auto.
  - exists s. auto.
  - (* PLoop *) destruct w as [b a|b a|?|?]; try discriminate; cbn; destruct (WK _ _ _ eq_refl) as (sz & c & W1 & W2 & W3 & _); destruct (v_seg _ _ I _ _ _ W1) as (G1 & G2 & G3 & _);
      rewrite W1, add64_low by lia; (destruct (Z.ltb_spec a (b + sz)) as [L|L]; [eexists; split; [reflexivity|]; apply inv_stay; [exact I|reflexivity|rewrite E; reflexivity|reflexivity|discriminate| |apply findok_none; reflexivity];
        intros _; right; intros k x y K; cbn in K; injection K as <- <- <-; exists sz, c; auto|assert (a = b + sz) by lia; subst a; eexists; split; [reflexivity|]]).
    + eapply inv_set_end; eassumption.
    + eapply inv_unset_end; eassumption.
  - (* PGet *) rewrite get_id_ok by (apply TG; [exact I|reflexivity|reflexivity|destruct w; reflexivity]). cbn. destruct (cregs s (target w / TB)) as [r|] eqn:K; eexists; (split; [reflexivity|]);
      apply stay_w; try rewrite E; try reflexivity; try assumption; try discriminate; cbn; try (intros x y Q; injection Q as <- <-; assumption);
      apply (findok_same _ _ _ FO); cbn; try (intros; destruct w; assumption); try (intros; exact Logic.I); destruct w; auto.
  - (* PTest *) rewrite (v_ini _ _ I). eexists; split; [reflexivity|]. apply stay_w; try rewrite E; try reflexivity; try assumption; try discriminate.
  - (* PLock *) destruct (clck s) eqn:K; eexists; (split; [reflexivity|]); [exact I|].
    apply inv_move; try rewrite E; try reflexivity; try assumption; try discriminate.
    + intros _. split; [reflexivity|]. intros u _. destruct (inlock (cat s u)) eqn:Q; [|reflexivity]. pose proof (v_lock2 _ _ I _ Q). congruence.
    + right. intros u _. destruct (inlock (cat s u)) eqn:Q; [|reflexivity]. pose proof (v_lock2 _ _ I _ Q). congruence.
    + intros _. left. reflexivity.
  - (* PLook *) assert (OT : clck s = true /\ forall u, u <> t -> inlock (cat s u) = false).
    { split; [apply (v_lock2 _ _ I t); rewrite E; reflexivity|]. intros u N. destruct (inlock (cat s u)) eqn:Q; [|reflexivity]. exfalso. apply N. apply (v_lock _ _ I); [exact Q|rewrite E; reflexivity]. }
    rewrite get_id_ok by (apply TG; [exact I|reflexivity|reflexivity|destruct w; reflexivity]). cbn. destruct (cregs s (target w / TB)) as [r|] eqn:K; eexists; (split; [reflexivity|]);
      match goal with |- Inv _ (go_to s t ?pl) => change (go_to s t pl) with (go_to (with_lock s (clck s)) t pl) end;
      (apply inv_move; try rewrite E; try reflexivity; try assumption; try discriminate; [intros _; exact OT|left; reflexivity| |]).
    + cbn. intros x y Q. injection Q as <- <-. exact K.
    + intros _; left; reflexivity.
    + intros w' Q. injection Q as <-. exact K.
    + intros _; left; reflexivity.
  - (* PMap *) rewrite get_id_ok by (apply TG; [exact I|reflexivity|reflexivity|destruct w; reflexivity]). cbn. eexists; split; [reflexivity|]. apply inv_new; assumption.
  - (* PUnlock *) eexists; split; [reflexivity|]. apply inv_move; try rewrite E; try reflexivity; try assumption; try discriminate.
    + right. intros u N. destruct (inlock (cat s u)) eqn:Q; [|reflexivity]. exfalso. apply N. apply (v_lock _ _ I); [exact Q|rewrite E; reflexivity].
    + intros _; left; reflexivity.
  - (* PRead *) unfold first_read. rewrite (ER _ _ eq_refl). destruct w as [b a|b a|p|p]; cbn [target] in *.
    + rewrite (FS _ _ eq_refl eq_refl). cbn. eexists; split; [reflexivity|]. apply stay_w; try rewrite E; try reflexivity; try assumption; try (apply findok_none; reflexivity).
    + destruct (WK _ _ _ eq_refl) as (sz & c & W1 & W2 & W3 & W4). specialize (W4 eq_refl).
      assert (EB : ent s a = b) by (apply (v_claim _ _ I b a (b + sz)); [apply (cl_unset _ _ t a sz c); [rewrite E; reflexivity|exact W1]|lia|exact W3]).
      rewrite EB, Z.eqb_refl. eexists; split; [reflexivity|]. apply stay_w; try rewrite E; try reflexivity; try assumption; try (apply findok_none; reflexivity).
    + destruct (FO p eq_refl) as (b & sz & L & R & _). pose proof (live_low _ _ I _ _ _ L R) as LW. destruct (v_live _ _ I _ _ L) as (c & HS). pose proof (v_seg _ _ I _ _ _ HS) as (G1 & _).
      pose proof (own_entry _ _ I _ _ _ L R) as OE.
      assert (FB : (ent s p = 0 \/ p < ent s p) -> findok (clive s) (PGet (WBack p))).
      { intros Q p' Hp. cbn in Hp. injection Hp as <-. exists b, sz. split; [exact L|]. split; [exact R|]. split; [|exact Logic.I]. intros _. destruct OE as [Q2|(Q2 & _)]; [lia|exact Q2]. }
      destruct once.
      * eexists; split; [reflexivity|]. destruct (((ent s p =? 0) || (p <? ent s p)) && (MB2 <? p)) eqn:Q; (apply stay_w; try rewrite E; try reflexivity; try assumption; try discriminate); apply FB; lia.
      * destruct (aligned_entry _ _ I _ _ _ eq_refl L R) as (AE & _). rewrite AE. destruct (Z.eqb_spec b 0); [lia|]. eexists; split; [reflexivity|].
        apply stay_w; try rewrite E; try reflexivity; try assumption; try (apply (findok_same _ _ _ FO); cbn; auto).
    + destruct (FO p eq_refl) as (b & sz & L & R & LT & _). specialize (LT eq_refl). destruct (v_live _ _ I _ _ L) as (c & HS). pose proof (v_seg _ _ I _ _ _ HS) as (G1 & G2 & G3 & _).
      rewrite (back_entry _ _ I _ _ _ L R LT). destruct (Z.eqb_spec b 0); [lia|]. pose proof (late_start _ _ _ G3 (proj1 R) LT) as LB. destruct once.
      * destruct (Z.ltb_spec b p); [|lia]. eexists; split; [reflexivity|]. apply stay_w; try rewrite E; try reflexivity; try assumption.
        intros p' Hp. cbn in Hp. injection Hp as <-. exists b, sz. cbn. auto.
      * eexists; split; [reflexivity|]. apply stay_w; try rewrite E; try reflexivity; try assumption; try (apply (findok_same _ _ _ FO); cbn; auto).
  - (* PWrite *) destruct w as [b a|b a|?|?]; try discriminate; destruct (WK _ _ _ eq_refl) as (sz & c & W1 & W2 & W3 & W4); specialize (W4 eq_refl); destruct (v_seg _ _ I _ _ _ W1) as (G1 & G2 & G3 & G4 & _);
      cbn; (rewrite add64_low; [|lia|mb; lia|clear - W2 W3 W4 G2 G4; mb; lia]); eexists; (split; [reflexivity|]).
    + exact (inv_write once s t _ r true b a b I E eq_refl eq_refl).
    + exact (inv_write once s t _ r false b a 0 I E eq_refl eq_refl).
  - (* PRead2 *) rewrite (ER _ _ eq_refl). eexists; split; [reflexivity|]. destruct (FO p eq_refl) as (b & sz & L & R & _). pose proof (own_entry _ _ I _ _ _ L R) as OE.
    destruct ((p <? ent s p) && (MB2 <? p)) eqn:Q; (apply stay_w; try rewrite E; try reflexivity; try assumption; try discriminate).
    + intros p' Hp. cbn in Hp. injection Hp as <-. exists b, sz. split; [exact L|]. split; [exact R|]. split; [|exact Logic.I]. intros _. destruct OE as [Q2|(Q2 & _)]; [lia|exact Q2].
  - (* PRead3 *) eexists; split; [reflexivity|]. apply stay_w; try rewrite E; try reflexivity; try assumption; try discriminate; try (apply findok_none; reflexivity).
  - (* PBack2 *) eexists; split; [reflexivity|]. destruct (entry s r (p - MB2) <? p); (apply stay_w; try rewrite E; try reflexivity; try assumption; try discriminate); apply (findok_same _ _ _ FO); cbn; auto.
  - (* PBack3 *) destruct (FO p eq_refl) as (b & sz & L & R & LT & _). specialize (LT eq_refl). rewrite (ER _ _ eq_refl), (back_entry _ _ I _ _ _ L R LT). eexists; split; [reflexivity|].
    apply stay_w; try rewrite E; try reflexivity; try assumption. intros p' Hp. cbn in Hp. injection Hp as <-. exists b, sz. cbn. auto.
  - (* PBack4 *) destruct (FO p eq_refl) as (b & sz & L & R & LT & KN). specialize (LT eq_refl). cbn in KN. rewrite (ER _ _ eq_refl), (back_entry _ _ I _ _ _ L R LT). eexists; split; [reflexivity|].
    apply stay_w; try rewrite E; try reflexivity; try assumption. intros p' Hp. cbn in Hp. injection Hp as <-. exists b, sz. cbn. auto.
  - (* PHdr *) destruct (FO p eq_refl) as (b & sz & L & R & LT & KN). cbn in KN. destruct KN as (K1 & K2). destruct (v_live _ _ I _ _ L) as (c & HS). rewrite K2, HS. eexists; split; [reflexivity|].
    destruct (p <? add64 e sz); [destruct once|]; (apply stay_w; try rewrite E; try reflexivity; try assumption; try discriminate); try (apply findok_none; reflexivity). apply (findok_same _ _ _ FO); cbn; auto.
  - (* PBack5 *) eexists; split; [reflexivity|]. apply stay_w; try rewrite E; try reflexivity; try assumption; try discriminate; try (apply findok_none; reflexivity).
Qed.

Lemma inv_find once s t p : Inv once s -> cvalid once s (CFind t p) -> Inv once (go_to s t (PGet (WFind p))).
Proof.
  intros I (R & b & sz & L & P). assert (PT : prog (cat s t) = None) by (apply rest_prog; exact R). apply stay_w; try reflexivity; try discriminate; [exact I|rewrite PT; reflexivity|destruct (cat s t); try reflexivity; discriminate|].
  intros p' Hp. cbn in Hp. injection Hp as <-. exists b, sz. split; [exact L|]. split; [exact P|]. split; [discriminate|exact Logic.I].
Qed.
Lemma cstep_ok once s x : Inv once s -> cvalid once s x -> exists s', cstep once x s = Ok s' /\ Inv once s'.
Proof.
  intros I V. destruct x as [t c b sz|t b|t p|t a c|t]; cbn [cstep].
  - eexists; split; [reflexivity|]. apply inv_reg; assumption.
  - eexists; split; [reflexivity|]. apply inv_unreg; assumption.
  - eexists; split; [reflexivity|]. apply inv_find; assumption.
  - contradiction.
  - apply cgo_ok. exact I.
Qed.
Lemma inv_0 once : Inv once (c0 true).
Proof.
  constructor; cbn; try (intros; discriminate); try reflexivity; try (intros; contradiction).
  - intros b lo hi a [sz K|t x K|t x sz c K _]; [destruct K|discriminate|discriminate].
Qed.
Lemma creach_inv once s : creach once s -> Inv once s.
Proof. intros H. induction H as [|s x s' _ I V E]; [apply inv_0|]. destruct (cstep_ok _ _ _ I V) as (s2 & E2 & I2). congruence. Qed.

(** When the compiler reads the entries once, the places between the reads are not used. *)
Definition single (p : place) : bool := match p with PRead2 _ _ | PRead3 _ _ | PBack2 _ _ | PBack3 _ _ | PBack4 _ _ _ | PBack5 _ _ => false | _ => true end.
Lemma at_go s t pl u : cat (go_to s t pl) u = if Nat.eqb u t then pl else cat s u. Proof. reflexivity. Qed.
Lemma cgo_move once t s s' : cgo once t s = Ok s' -> forall u, u <> t -> cat s' u = cat s u.
Proof.
  intros H u N. assert (G : forall s1 pl, cat s1 = cat s -> Ok (go_to s1 t pl) = Ok s' -> cat s' u = cat s u).
  { intros s1 pl Q K. injection K as <-. rewrite at_go, Q. destruct (Nat.eqb_spec u t); [contradiction|reflexivity]. }
  unfold cgo in H. destruct (cat s t); try (injection H as <-; reflexivity); try (exact (G _ _ eq_refl H)); try (exact (G (with_lock _ _) _ eq_refl H)); try (exact (G (with_ini _ _) _ eq_refl H));
    try (exact (G (with_regs _ _) _ eq_refl H)); try (exact (G (with_entry _ _ _ _) _ eq_refl H)).
  - unfold loop_test in H. destruct w as [b a|b a|?|?]; try discriminate; (destruct (chdr s b) as [[sz c]|]; [|discriminate]); (destruct (a <? add64 b sz); [exact (G _ _ eq_refl H)|]);
      [exact (G (with_live s _) _ eq_refl H)|exact (G (with_hdr s _ _) _ eq_refl H)].
  - destruct (get_id (target w)); try discriminate. exact (G _ _ eq_refl H).
  - destruct (clck s); [injection H as <-; reflexivity|exact (G (with_lock _ _) _ eq_refl H)].
  - destruct (get_id (target w)); try discriminate. exact (G _ _ eq_refl H).
  - destruct (get_id (target w)); try discriminate. exact (G (with_new s _) _ eq_refl H).
  - unfold first_read in H. destruct w as [b a|b a|p|p]; [destruct (entry s r _ =? 0); [|discriminate]| |destruct once; [|]|destruct (entry s r _ =? 0); [|destruct once]]; exact (G _ _ eq_refl H).
  - destruct w; try discriminate; exact (G (with_entry s _ _ _) _ eq_refl H).
  - destruct (chdr s e') as [[sz c]|]; [|discriminate]. exact (G _ _ eq_refl H).
  - destruct (chdr s (ctabs s r i)) as [[sz d]|]; [|discriminate]. exact (G _ _ eq_refl H).
Qed.
Lemma single_go t s s' : single (cat s t) = true -> cgo true t s = Ok s' -> single (cat s' t) = true.
Proof.
  intros S H. assert (G : forall s1 pl, single pl = true -> Ok (go_to s1 t pl) = Ok s' -> single (cat s' t) = true).
  { intros s1 pl Q K. injection K as <-. rewrite at_go, Nat.eqb_refl. exact Q. }
  assert (B : forall (c : bool) p q, single p = true -> single q = true -> single (if c then p else q) = true) by (intros [] p q; auto).
  unfold cgo in H. destruct (cat s t) eqn:E; try discriminate S; try (injection H as <-; rewrite E; reflexivity); try ((refine (G _ _ _ H); reflexivity)).
  - unfold loop_test in H. destruct w as [b a|b a|?|?]; try discriminate; (destruct (chdr s b) as [[sz c]|]; [|discriminate]); (destruct (a <? add64 b sz); (refine (G _ _ _ H); reflexivity)).
  - destruct (get_id (target w)); try discriminate. refine (G _ _ _ H). destruct (cregs s a); reflexivity.
  - refine (G _ _ _ H). destruct (cini s); reflexivity.
  - destruct (clck s); [injection H as <-; rewrite E; reflexivity|(refine (G _ _ _ H); reflexivity)].
  - destruct (get_id (target w)); try discriminate. refine (G _ _ _ H). destruct (cregs s a); reflexivity.
  - destruct (get_id (target w)); try discriminate. (refine (G _ _ _ H); reflexivity).
  - unfold first_read in H. destruct w as [b a|b a|p|p]; [destruct (entry s r _ =? 0); [|discriminate]| | |destruct (entry s r _ =? 0)]; refine (G _ _ _ H); try reflexivity; apply B; reflexivity.
  - destruct w; try discriminate; (refine (G _ _ _ H); reflexivity).
  - destruct (chdr s e') as [[sz c]|]; [|discriminate]. refine (G _ _ _ H). apply B; reflexivity.
  - refine (G _ _ _ H). repeat apply B; reflexivity.
  - destruct (chdr s (ctabs s r i)) as [[sz d]|]; [|discriminate]. refine (G _ _ _ H). apply B; reflexivity.
Qed.
Lemma single_reach s : creach true s -> forall t, single (cat s t) = true.
Proof.
  intros H. induction H as [|s x s' _ IH V E]; [reflexivity|]. intros u.
  assert (G : forall s1 t pl, cat s1 = cat s -> single pl = true -> Ok (go_to s1 t pl) = Ok s' -> single (cat s' u) = true).
  { intros s1 t pl Q Q2 K. injection K as <-. rewrite at_go, Q. destruct (Nat.eqb_spec u t); [exact Q2|apply IH]. }
  destruct x as [t c b sz|t b|t p|t a c|t]; cbn [cstep] in E; try (refine (G _ _ _ eq_refl _ E); reflexivity).
  - refine (G (with_hdr _ _ _) _ _ eq_refl _ E); reflexivity.
  - refine (G (with_live _ _) _ _ eq_refl _ E); reflexivity.
  - contradiction.
  - destruct (Nat.eq_dec u t) as [->|N]; [exact (single_go _ _ _ (IH t) E)|]. rewrite (cgo_move _ _ _ _ E u N). apply IH.
Qed.

(** The result of a lookup. *)
Lemma found_ok once s t p s' p' r : Inv once s -> (once = true -> single (cat s t) = true) -> looking (cat s t) = Some p -> cgo once t s = Ok s' -> cat s' t = PFound p' r ->
  p' = p /\ exists sz, In (r, sz) (clive s') /\ r <= p < r + sz.
Proof.
  intros I SG LK H F. pose proof (v_find _ _ I t) as FO. destruct (FO p LK) as (b & sz & L & R & LT & KN).
  destruct (v_live _ _ I _ _ L) as (c & HS). pose proof (v_seg _ _ I _ _ _ HS) as (G1 & G2 & G3 & _). pose proof (live_low _ _ I _ _ _ L R) as LW. pose proof (own_entry _ _ I _ _ _ L R) as OE.
  assert (MB : 2097152 < p) by lia.
  pose proof (fun a r => ent_reg once s t a r I) as ER. pose proof (fun O => aligned_entry _ _ I b sz p O L R) as AE. pose proof (fun K => back_entry _ _ I b sz p L R (LT K)) as BE.
  assert (D : forall pl, Ok (go_to s t pl) = Ok s' -> pl = PFound p' r /\ clive s' = clive s).
  { intros pl K. injection K as <-. split; [rewrite at_go, Nat.eqb_refl in F; exact F|reflexivity]. }
  unfold cgo in H. destruct (cat s t) eqn:E; try discriminate LK.
  - (* PGet *) destruct (get_id (target w)); try discriminate. cbn in H. apply D in H as (H & _). destruct (cregs s a); discriminate.
  - apply D in H as (H & _). destruct (cini s); discriminate.
  - injection H as <-. rewrite at_go, Nat.eqb_refl in F. discriminate.
  - injection H as <-. rewrite at_go, Nat.eqb_refl in F. discriminate.
  - injection H as <-. rewrite at_go, Nat.eqb_refl in F. discriminate.
  - destruct (clck s); injection H as <-; [congruence|]. rewrite at_go, Nat.eqb_refl in F. discriminate.
  - destruct (get_id (target w)); try discriminate. cbn in H. apply D in H as (H & _). destruct (cregs s a); discriminate.
  - destruct (get_id (target w)); try discriminate. cbn in H. injection H as <-. rewrite at_go, Nat.eqb_refl in F. discriminate.
  - injection H as <-. rewrite at_go, Nat.eqb_refl in F. discriminate.
  - (* PRead *) unfold first_read in H. rewrite (ER _ _ eq_refl) in H. destruct w as [?|?|q|q]; cbn in LK; try discriminate; injection LK as ->; cbn [target] in H.
    + destruct once.
      * apply D in H as (H & ->). destruct (((ent s p =? 0) || (p <? ent s p)) && (MB2 <? p)) eqn:Q; [discriminate|]. injection H as <- <-. split; [reflexivity|].
        assert (EB : ent s p = b) by (destruct OE as [K|(_ & K)]; [exact K|mb; lia]). rewrite EB. exists sz. auto.
      * destruct (ent s p =? 0); [destruct (MB2 <? p)|]; apply D in H as (H & _); discriminate.
    + rewrite (BE eq_refl) in H. destruct (Z.eqb_spec b 0); [lia|]. destruct once; [|apply D in H as (H & _); discriminate].
      apply D in H as (H & _). destruct (Z.ltb_spec b p) as [K|K]; [discriminate|]. pose proof (late_start b sz p G3 (proj1 R) (LT eq_refl)). lia.
  - injection H as <-. rewrite at_go, Nat.eqb_refl in F. destruct ((p0 <? entry s r0 p0) && (MB2 <? p0)); discriminate.
  - (* PRead3 *) cbn in LK. injection LK as ->. rewrite (ER _ _ eq_refl) in H. destruct once; [specialize (SG eq_refl); discriminate|]. apply D in H as (H & ->). injection H as <- <-. split; [reflexivity|].
    rewrite (proj1 (AE eq_refl)). exists sz. auto.
  - (* PBack2 *) destruct once; [specialize (SG eq_refl); discriminate|]. exfalso. apply (proj2 (AE eq_refl)). exact (LT eq_refl).
  - injection H as <-. rewrite at_go, Nat.eqb_refl in F. discriminate.
  - injection H as <-. rewrite at_go, Nat.eqb_refl in F. discriminate.
  - (* PHdr *) cbn in LK, KN. injection LK as ->. destruct KN as (-> & ->). rewrite HS, add64_low in H by lia. destruct (Z.ltb_spec p (b + sz)); [|lia].
    apply D in H as (H & ->). destruct once; [|discriminate]. injection H as <- <-. split; [reflexivity|]. exists sz. auto.
  - destruct once; [specialize (SG eq_refl); discriminate|]. exfalso. apply (proj2 (AE eq_refl)). exact (LT eq_refl).
Qed.

(** Somebody holds the lock that is taken. *)
Definition held (s : cst) : Prop := clck s = true -> exists t, inlock (cat s t) = true.
Lemma held_go s s' t pl : held s -> clck s' = clck s -> cat s' = fupd (cat s) t pl -> (inlock (cat s t) = true -> inlock pl = true) -> held s'.
Proof.
  intros H E1 E2 K C. rewrite E1 in C. destruct (H C) as (u & U). exists u. rewrite E2. unfold fupd. destruct (Nat.eqb_spec u t) as [->|N]; auto.
Qed.
Lemma held_step once s x s' : Inv once s -> held s -> cvalid once s x -> cstep once x s = Ok s' -> held s'.
Proof.
  intros I H V E. assert (RI : forall t, resting (cat s t) = true -> inlock (cat s t) = true -> False) by (intros t A B; destruct (cat s t); discriminate).
  destruct x as [t c b sz|t b|t p|t a c|t]; cbn [cstep cvalid] in *.
  - injection E as <-. apply (held_go s _ t (PLoop (WSet b b)) H); [reflexivity|reflexivity|]. intros K. destruct (RI t (proj1 V) K).
  - injection E as <-. apply (held_go s _ t (PLoop (WUnset b b)) H); [reflexivity|reflexivity|]. intros K. destruct (RI t (proj1 V) K).
  - injection E as <-. apply (held_go s _ t (PGet (WFind p)) H); [reflexivity|reflexivity|]. intros K. destruct (RI t (proj1 V) K).
  - contradiction.
  - pose proof (v_place _ _ I t) as PO.
    assert (G : forall s1 pl, clck s1 = clck s -> cat s1 = cat s -> (inlock (cat s t) = true -> inlock pl = true) -> Ok (go_to s1 t pl) = Ok s' -> held s').
    { intros s1 pl A B C D. injection D as <-. apply (held_go s _ t pl H); [exact A|cbn; rewrite B; reflexivity|exact C]. }
    unfold cgo in E. destruct (cat s t) eqn:At; try discriminate PO; try (injection E as <-; exact H).
    all: try (refine (G _ _ eq_refl eq_refl _ E); discriminate).
    + unfold loop_test in E. destruct w as [b a|b a|?|?]; try discriminate; (destruct (chdr s b) as [[sz c]|]; [|discriminate]); (destruct (a <? add64 b sz); [refine (G _ _ eq_refl eq_refl _ E); discriminate|]);
        [refine (G (with_live s _) _ eq_refl eq_refl _ E); discriminate|refine (G (with_hdr s _ _) _ eq_refl eq_refl _ E); discriminate].
    + destruct (get_id (target w)); try discriminate. refine (G _ _ eq_refl eq_refl _ E); discriminate.
    + destruct (clck s) eqn:K; injection E as <-; [exact H|]. intros _. exists t. rewrite at_go, Nat.eqb_refl. reflexivity.
    + destruct (get_id (target w)); try discriminate. refine (G _ _ eq_refl eq_refl _ E). intros _. destruct (cregs s a); reflexivity.
    + destruct (get_id (target w)); try discriminate. refine (G (with_new s _) _ eq_refl eq_refl _ E). reflexivity.
    + injection E as <-. intros K. discriminate K.
    + unfold first_read in E. destruct w as [b a|b a|p|p]; [destruct (entry s r _ =? 0); [|discriminate]| |destruct once; [|]|destruct (entry s r _ =? 0); [|destruct once]]; refine (G _ _ eq_refl eq_refl _ E); discriminate.
    + destruct w; try discriminate; refine (G (with_entry s _ _ _) _ eq_refl eq_refl _ E); discriminate.
    + destruct (chdr s e') as [[sz c]|]; [|discriminate]. refine (G _ _ eq_refl eq_refl _ E). discriminate.
Qed.
Lemma held_reach once s : creach once s -> held s.
Proof. intros H. induction H as [|s x s' R IH V E]; [discriminate|]. exact (held_step _ _ _ _ (creach_inv _ _ R) IH V E). Qed.

(** A measure of what a call has left to do. *)
Definition left_of (s : cst) (w : work) : Z :=
  match w with WSet b a | WUnset b a => match chdr s b with Some (sz, _) => (b + sz - a) / MB2 | None => 0 end | WFind _ => 1 | WBack _ => 0 end.
Definition meas (s : cst) (pl : place) : Z :=
  match pl with
  | PLoop w => 20 * left_of s w + 19 | PGet w => 20 * left_of s w + 18 | PTest w => 20 * left_of s w + 17 | PLock w => 20 * left_of s w + 16
  | PLook w => 20 * left_of s w + 15 | PMap w => 20 * left_of s w + 14 | PUnlock w _ => 20 * left_of s w + 13 | PRead w _ => 20 * left_of s w + 12
  | PWrite w _ => 20 * left_of s w + 11 | PRead2 _ _ => 31 | PRead3 _ _ => 30 | PBack2 _ _ => 11 | PBack3 _ _ => 10 | PBack4 _ _ _ => 9 | PHdr _ _ _ _ => 8 | PBack5 _ _ => 7
  | _ => 0
  end.
Definition alone (s : cst) (t : nat) : Prop := clck s = false \/ inlock (cat s t) = true.
Lemma left_nonneg once s t w : Inv once s -> prog (cat s t) = of_work w -> 0 <= left_of s w.
Proof.
  intros I H. destruct w as [b a|b a|p|p]; cbn in *; try lia; destruct (v_work _ _ I _ _ _ _ H) as (sz & c & -> & K & _); apply Z.div_pos; mb; lia.
Qed.
Lemma meas_nonneg once s t : Inv once s -> 0 <= meas s (cat s t).
Proof. intros I. pose proof (fun w => left_nonneg once s t w I) as L. destruct (cat s t); cbn [meas prog] in *; try lia; specialize (L _ eq_refl); lia. Qed.
Lemma meas_go once s t s' : Inv once s -> resting (cat s t) = false -> alone s t -> cgo once t s = Ok s' ->
  resting (cat s' t) = true \/ meas s' (cat s' t) < meas s (cat s t) /\ alone s' t /\ looking (cat s' t) = looking (cat s t) /\ resting (cat s' t) = false.
Proof.
  intros I R A H. pose proof (v_place _ _ I t) as PO. pose proof (fun k b a => v_work _ _ I t k b a) as WK.
  assert (G : forall s1 pl, Ok (go_to s1 t pl) = Ok s' -> chdr s1 = chdr s -> (clck s1 = false \/ inlock pl = true) -> meas s pl < meas s (cat s t) -> looking pl = looking (cat s t) -> resting pl = false ->
    meas s' (cat s' t) < meas s (cat s t) /\ alone s' t /\ looking (cat s' t) = looking (cat s t) /\ resting (cat s' t) = false).
  { intros s1 pl K E1 E2 E3 E4 E5. injection K as <-. assert (MS : forall q, meas (go_to s1 t pl) q = meas s q) by (intros q; destruct q; cbn; try reflexivity; unfold left_of; destruct w; cbn; rewrite ?E1; reflexivity).
    rewrite MS, at_go, Nat.eqb_refl. split; [exact E3|]. split; [|auto]. unfold alone. rewrite at_go, Nat.eqb_refl. exact E2. }
  assert (F : forall s1 pl, Ok (go_to s1 t pl) = Ok s' -> resting pl = true -> resting (cat s' t) = true) by (intros s1 pl K E; injection K as <-; rewrite at_go, Nat.eqb_refl; exact E).
  unfold cgo in H. unfold alone in A. destruct (cat s t) eqn:E; try discriminate R; try discriminate PO; cbn [inlock] in A; try (assert (A' : clck s = false) by (destruct A; [assumption|discriminate])).
  - unfold loop_test in H. destruct w as [b a|b a|?|?]; try discriminate; (destruct (chdr s b) as [[sz c]|] eqn:K; [|discriminate]); (destruct (a <? add64 b sz);
      [right; refine (G _ _ H eq_refl _ _ eq_refl eq_refl); [left; exact A'|cbn [meas left_of]; lia]|left; refine (F _ _ H eq_refl)]).
  - destruct (get_id (target w)); try discriminate. right. cbn in H. refine (G _ _ H eq_refl _ _ _ _); destruct (cregs s a); cbn [meas left_of]; try lia; try reflexivity; left; exact A'.
  - right. rewrite (v_ini _ _ I) in H. refine (G _ _ H eq_refl _ _ _ _); cbn [meas left_of]; try lia; try reflexivity. left; exact A'.
  - right. rewrite A' in H. refine (G _ _ H eq_refl _ _ _ _); cbn [meas left_of]; try lia; try reflexivity. right; reflexivity.
  - destruct (get_id (target w)); try discriminate. right. cbn in H. refine (G _ _ H eq_refl _ _ _ _); destruct (cregs s a); cbn [meas left_of]; try lia; try reflexivity; right; reflexivity.
  - destruct (get_id (target w)); try discriminate. right. cbn in H. refine (G _ _ H eq_refl _ _ _ _); cbn [meas left_of]; try lia; try reflexivity; right; reflexivity.
  - right. refine (G _ _ H eq_refl _ _ _ _); cbn [meas left_of]; try lia; try reflexivity. left; reflexivity.
  - unfold first_read in H. destruct w as [b a|b a|p|p].
    + destruct (entry s r _ =? 0); [|discriminate]. right. refine (G _ _ H eq_refl _ _ _ _); cbn [meas left_of]; try lia; try reflexivity. left; exact A'.
    + assert (EB : entry s r a = b).
      { rewrite (ent_reg once s t a r I) by (rewrite E; reflexivity). destruct (WK _ _ _ eq_refl) as (sz & c & W1 & W2 & W3 & W4).
        apply (v_claim _ _ I b a (b + sz)); [apply (cl_unset _ _ t a sz c); [rewrite E; reflexivity|exact W1]|specialize (W4 eq_refl); lia|exact W3]. }
      cbn [target] in H. rewrite EB, Z.eqb_refl in H. right. refine (G _ _ H eq_refl _ _ _ _); cbn [meas left_of]; try lia; try reflexivity. left; exact A'.
    + destruct once; [destruct (((entry s r _ =? 0) || (p <? entry s r _)) && (MB2 <? p))|destruct (entry s r _ =? 0); [destruct (MB2 <? p)|]];
        (try (left; refine (F _ _ H eq_refl))); right; (refine (G _ _ H eq_refl _ _ _ _); cbn [meas left_of]; try lia; try reflexivity; left; exact A').
    + destruct (entry s r _ =? 0) eqn:Q; [left; refine (F _ _ H eq_refl)|]. destruct once; [destruct (entry s r _ <? p); [|left; refine (F _ _ H eq_refl)]|];
        right; (refine (G _ _ H eq_refl _ _ _ _); cbn [meas left_of]; try lia; try reflexivity; left; exact A').
  - right. destruct w as [b a|b a|?|?]; try discriminate; destruct (WK _ _ _ eq_refl) as (sz & c & W1 & W2 & W3 & W4); specialize (W4 eq_refl); destruct (v_seg _ _ I _ _ _ W1) as (G1 & G2 & G3 & G4 & _);
      cbn in H; (rewrite add64_low in H; [|lia|mb; lia|clear - W2 W3 W4 G2 G4; mb; lia]); (refine (G _ _ H eq_refl _ _ _ _); [left; exact A'|cbn [meas left_of]; rewrite W1; clear; mb; lia|reflexivity|reflexivity]).
  - right. destruct ((p <? entry s r p) && (MB2 <? p)); (refine (G _ _ H eq_refl _ _ _ _); cbn [meas left_of]; try lia; try reflexivity; left; exact A').
  - left. refine (F _ _ H eq_refl).
  - destruct (entry s r (p - MB2) <? p); [right; (refine (G _ _ H eq_refl _ _ _ _); cbn [meas left_of]; try lia; try reflexivity; left; exact A')|left; refine (F _ _ H eq_refl)].
  - right; (refine (G _ _ H eq_refl _ _ _ _); cbn [meas left_of]; try lia; try reflexivity; left; exact A').
  - right; (refine (G _ _ H eq_refl _ _ _ _); cbn [meas left_of]; try lia; try reflexivity; left; exact A').
  - destruct (chdr s e') as [[sz c]|]; [|discriminate]. destruct (p <? add64 e sz); [destruct once|]; try (left; refine (F _ _ H eq_refl)).
    right; (refine (G _ _ H eq_refl _ _ _ _); cbn [meas left_of]; try lia; try reflexivity; left; exact A').
  - left. refine (F _ _ H eq_refl).
Qed.
Lemma found_reach once s t p s' p' r : creach once s -> looking (cat s t) = Some p -> cgo once t s = Ok s' -> cat s' t = PFound p' r -> p' = p /\ exists sz, In (r, sz) (clive s') /\ r <= p < r + sz.
Proof. intros R L H F. eapply found_ok; try eassumption; [exact (creach_inv _ _ R)|]. intros ->. exact (single_reach _ R t). Qed.
Lemma go_reach once s t : creach once s -> exists s', cgo once t s = Ok s' /\ creach once s'.
Proof. intros R. destruct (cgo_ok once s t (creach_inv _ _ R)) as (s' & E & _). exists s'. split; [exact E|]. exact (creach_step _ s (CGo t) s' R Logic.I E). Qed.
Lemma look_rest once s t p s' : Inv once s -> looking (cat s t) = Some p -> cgo once t s = Ok s' -> resting (cat s' t) = true -> exists p' r, cat s' t = PFound p' r.
Proof.
  intros I L H R. assert (G : forall s1 pl, Ok (go_to s1 t pl) = Ok s' -> pl <> PIdle -> pl <> PDone -> exists p' r, cat s' t = PFound p' r).
  { intros s1 pl K N1 N2. injection K as <-. rewrite at_go, Nat.eqb_refl in *. destruct pl; try discriminate R; try contradiction. eauto. }
  unfold cgo in H. destruct (cat s t) eqn:E; try discriminate L; try (refine (G _ _ H _ _); discriminate).
  - destruct (get_id (target w)); try discriminate. refine (G _ _ H _ _); destruct (cregs s a); discriminate.
  - refine (G _ _ H _ _); destruct (cini s); discriminate.
  - destruct (clck s); [injection H as <-; rewrite E in R; discriminate|refine (G _ _ H _ _); discriminate].
  - destruct (get_id (target w)); try discriminate. refine (G _ _ H _ _); destruct (cregs s a); discriminate.
  - destruct (get_id (target w)); try discriminate. refine (G _ _ H _ _); discriminate.
  - unfold first_read in H. destruct w as [b a|b a|q|q]; try discriminate L.
    + destruct once; [|destruct (entry s r _ =? 0); [destruct (MB2 <? q)|]]; refine (G _ _ H _ _); try discriminate; destruct (((entry s r _ =? 0) || (q <? entry s r _)) && (MB2 <? q)); discriminate.
    + destruct (entry s r _ =? 0); [|destruct once]; refine (G _ _ H _ _); try discriminate; destruct (entry s r _ <? q); discriminate.
  - refine (G _ _ H _ _); destruct ((p0 <? entry s r p0) && (MB2 <? p0)); discriminate.
  - refine (G _ _ H _ _); destruct (entry s r (p0 - MB2) <? p0); discriminate.
  - destruct (chdr s e') as [[sz c]|]; [|discriminate]. refine (G _ _ H _ _); destruct (p0 <? add64 e sz); try discriminate; destruct once; discriminate.
Qed.
Definition answered (s' : cst) (t : nat) (p : Z) : Prop := exists r sz, cat s' t = PFound p r /\ In (r, sz) (clive s') /\ r <= p < r + sz.
Lemma alone_ends once t n : forall s, creach once s -> resting (cat s t) = false -> alone s t -> meas s (cat s t) < Z.of_nat n ->
  exists l s', (forall u, In u l -> u = t) /\ turns once l s = Ok s' /\ creach once s' /\ resting (cat s' t) = true /\ forall p, looking (cat s t) = Some p -> answered s' t p.
Proof.
  induction n as [|n IH]; intros s R N A M; pose proof (creach_inv _ _ R) as I; pose proof (meas_nonneg once s t I) as P; [lia|].
  destruct (go_reach once s t R) as (s1 & E & R1). destruct (meas_go once s t s1 I N A E) as [D|(D1 & D2 & D3 & D4)].
  - exists [t], s1. split; [intros u [->|[]]; reflexivity|]. split; [cbn; rewrite E; reflexivity|]. split; [exact R1|]. split; [exact D|]. intros p L.
    destruct (look_rest _ _ _ _ _ I L E D) as (p' & r & F). destruct (found_reach _ _ _ _ _ _ _ R L E F) as (-> & sz & Q). exists r, sz. auto.
  - destruct (IH s1 R1 D4 D2 ltac:(lia)) as (l & s' & H1 & H2 & H3 & H4 & H5). exists (t :: l), s'. split; [intros u [->|K]; auto|]. split; [cbn; rewrite E; exact H2|]. split; [exact H3|]. split; [exact H4|].
    intros p L. apply H5. rewrite D3. exact L.
Qed.
(** The thread inside the lock leaves it, the others not moving. *)
Lemma lock_ends once s u : creach once s -> inlock (cat s u) = true -> exists l s', (forall v, In v l -> v = u) /\ turns once l s = Ok s' /\ creach once s' /\ clck s' = false.
Proof.
  assert (U1 : forall s w r, creach once s -> cat s u = PUnlock w r -> exists l s', (forall v, In v l -> v = u) /\ turns once l s = Ok s' /\ creach once s' /\ clck s' = false).
  { intros s0 w r R E. destruct (go_reach once s0 u R) as (s1 & G & R1). exists [u], s1. split; [intros v [->|[]]; reflexivity|]. split; [cbn; rewrite G; reflexivity|]. split; [exact R1|]. unfold cgo in G. rewrite E in G. injection G as <-. reflexivity. }
  assert (U2 : forall s w, creach once s -> cat s u = PMap w -> exists l s', (forall v, In v l -> v = u) /\ turns once l s = Ok s' /\ creach once s' /\ clck s' = false).
  { intros s0 w R E. destruct (go_reach once s0 u R) as (s1 & G & R1). assert (At : exists r, cat s1 u = PUnlock w r).
    { unfold cgo in G. rewrite E in G. destruct (get_id (target w)); try discriminate. injection G as <-. exists (cnext s0). rewrite at_go, Nat.eqb_refl. reflexivity. }
    destruct At as (r & At). destruct (U1 s1 w r R1 At) as (l & s' & H1 & H2 & H3). exists (u :: l), s'. split; [intros v [->|K]; auto|]. split; [cbn; rewrite G; exact H2|exact H3]. }
  intros R H. destruct (cat s u) eqn:E; try discriminate H; eauto.
  destruct (go_reach once s u R) as (s1 & G & R1). assert (At : (exists r, cat s1 u = PUnlock w r) \/ cat s1 u = PMap w).
  { unfold cgo in G. rewrite E in G. destruct (get_id (target w)); try discriminate. injection G as <-. rewrite at_go, Nat.eqb_refl. destruct (cregs s a); eauto. }
  destruct At as [(r & At)|At]; [destruct (U1 s1 w r R1 At) as (l & s' & H1 & H2 & H3)|destruct (U2 s1 w R1 At) as (l & s' & H1 & H2 & H3)];
    exists (u :: l), s'; (split; [intros v [->|K]; auto|]; split; [cbn; rewrite G; exact H2|exact H3]).
Qed.
Lemma turns_app once l l' s s1 : turns once l s = Ok s1 -> turns once (l ++ l') s = turns once l' s1.
Proof. revert s. induction l as [|t l IH]; intros s; cbn; [intros E; injection E as ->; reflexivity|]. destruct (cgo once t s); cbn; try discriminate. apply IH. Qed.
Lemma turns_other once l t s s' : (forall v, In v l -> v <> t) -> turns once l s = Ok s' -> cat s' t = cat s t.
Proof.
  revert s. induction l as [|u l IH]; intros s N; cbn; [intros E; injection E as ->; reflexivity|]. destruct (cgo once u s) as [s1| | |] eqn:E; cbn; try discriminate. intros K.
  rewrite (IH s1 (fun v Q => N v (or_intror Q)) K). apply (cgo_move _ _ _ _ E). intros ->. exact (N u (or_introl eq_refl) eq_refl).
Qed.
(** Every call can be brought to its end. *)
Lemma can_end once s t : creach once s -> resting (cat s t) = false ->
  exists l s', turns once l s = Ok s' /\ creach once s' /\ resting (cat s' t) = true /\ forall p, looking (cat s t) = Some p -> answered s' t p.
Proof.
  intros R N. destruct (clck s) eqn:C; [destruct (held_reach _ _ R C) as (u & U); destruct (Nat.eq_dec u t) as [->|D]|].
  - destruct (alone_ends once t (S (Z.to_nat (meas s (cat s t)))) s R N (or_intror U) ltac:(lia)) as (l & s' & _ & H). exists l, s'. exact H.
  - destruct (lock_ends once s u R U) as (l & s1 & H1 & H2 & H3 & H4). assert (At : cat s1 t = cat s t) by (apply (turns_other once l); [intros v K Q; apply D; rewrite <- Q; symmetry; apply H1; exact K|exact H2]).
    rewrite <- At in N |- *. destruct (alone_ends once t (S (Z.to_nat (meas s1 (cat s1 t)))) s1 H3 N (or_introl H4) ltac:(lia)) as (l' & s' & _ & H & H').
    exists (l ++ l'), s'. split; [rewrite (turns_app _ _ _ _ _ H2); exact H|exact H'].
  - destruct (alone_ends once t (S (Z.to_nat (meas s (cat s t)))) s R N (or_introl C) ltac:(lia)) as (l & s' & _ & H). exists l, s'. exact H.
Qed.

(** A region header stays. *)
Lemma region_stays once s x s' id r : Inv once s -> cvalid once s x -> cstep once x s = Ok s' -> cregs s id = Some r -> cregs s' id = Some r.
Proof.
  intros I V E K. assert (G : forall s1 t pl, cregs s1 id = Some r -> Ok (go_to s1 t pl) = Ok s' -> cregs s' id = Some r) by (intros s1 t pl Q D; injection D as <-; exact Q).
  destruct x as [t c b sz|t b|t p|t a c|t]; cbn [cstep] in E; try (refine (G _ _ _ _ E); exact K); [contradiction|].
  pose proof (v_place _ _ I t) as PO. pose proof (tgt once s t) as TG. unfold cgo in E. destruct (cat s t) eqn:At; try discriminate PO; try (injection E as <-; exact K); try (refine (G _ _ _ _ E); exact K).
  - unfold loop_test in E. destruct w as [b a|b a|?|?]; try discriminate; (destruct (chdr s b) as [[sz c]|]; [|discriminate]); destruct (a <? add64 b sz); refine (G _ _ _ _ E); exact K.
  - destruct (get_id (target w)); try discriminate. refine (G _ _ _ _ E); exact K.
  - destruct (clck s); [injection E as <-; exact K|refine (G _ _ _ _ E); exact K].
  - destruct (get_id (target w)); try discriminate. refine (G _ _ _ _ E); exact K.
  - rewrite get_id_ok in E by (apply TG; [exact I|reflexivity|reflexivity|destruct w; reflexivity]). cbn in E. refine (G _ _ _ _ E). cbn. unfold zupd. destruct (Z.eqb_spec id (target w / TB)) as [->|N]; [|exact K].
    rewrite (v_map _ _ I _ _ At) in K. discriminate.
  - unfold first_read in E. destruct w as [b a|b a|p|p]; [destruct (entry s r0 _ =? 0); [|discriminate]| |destruct once; [|]|destruct (entry s r0 _ =? 0); [|destruct once]]; refine (G _ _ _ _ E); exact K.
  - destruct w; try discriminate; refine (G _ _ _ _ E); exact K.
  - destruct (chdr s e') as [[sz c]|]; [|discriminate]. refine (G _ _ _ _ E); exact K.
Qed.
