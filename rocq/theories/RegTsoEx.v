(** Runs of the registry with store buffers given as lists of actions, for the examples and the refutations of C83. *)
From Verif Require Import Word Res RegionModel RegConcModel RegTsoModel RegTsoSpec RegTsoProofs.
From Coq Require Import ZArith List Bool Lia Arith.
Import ListNotations.
Open Scope Z_scope.

Definition inT (T : list nat) (t : nat) : bool := existsb (Nat.eqb t) T.
Definition within (T : list nat) (s : xst) : Prop := forall u, ~ In u T -> x_buf s u = [].
Definition idleb (q : spot) : bool := match q with QIdle | QDone | QFound _ _ _ => true | _ => false end.
Definition knows (s : xst) (t : nat) (b : Z) : bool := existsb (fun '(u, y) => Nat.eqb u t && (y =? b)) (x_know s).
Definition gives (b : Z) (w : wr) : bool := match w with WGive y _ => y =? b | _ => false end.
Definition validb (T : list nat) (s : xst) (a : xact) : bool :=
  match a with
  | SReg t c b sz => idleb (x_at s t) && (4194304 <=? b) && (b + sz <=? 2 ^ 48) && (0 <? sz) && (b mod 2097152 =? 0) && (sz mod 2097152 =? 0) &&
      forallb (fun '(y, z, _) => (b + sz <=? y) || (y + z <=? b)) (x_map s)
  | SUnreg t b => idleb (x_at s t) && knows s t b && forallb (fun '(u, y) => Nat.eqb u t || negb (y =? b)) (x_know s) &&
      forallb (fun u => forallb (fun w => negb (gives b w)) (x_buf s u)) T
  | SFind t p => idleb (x_at s t) && existsb (fun '(b, sz, _) => knows s t b && (b <=? p) && (p <? b + sz)) (x_map s)
  | SGive t b u => idleb (x_at s t) && knows s t b
  | SDrop t b => idleb (x_at s t)
  | SGo t => true
  | SFlush t i => true
  end.
Definition actor (a : xact) : nat :=
  match a with SReg t _ _ _ | SUnreg t _ | SFind t _ | SGive t _ _ | SDrop t _ | SGo t | SFlush t _ => t end.
Lemma inT_ok T t : inT T t = true -> In t T.
Proof. unfold inT. rewrite existsb_exists. intros (x & H & E). apply Nat.eqb_eq in E. congruence. Qed.
Lemma idleb_ok q : idleb q = true -> idle q.
Proof. destruct q; cbn; try discriminate; auto. Qed.
Lemma knows_ok s t b : knows s t b = true -> In (t, b) (x_know s).
Proof. unfold knows. rewrite existsb_exists. intros ([u y] & H & E). apply andb_true_iff in E as (E1 & E2). apply Nat.eqb_eq in E1. apply Z.eqb_eq in E2. subst. exact H. Qed.
Lemma validb_ok T s a : within T s -> validb T s a = true -> xvalid s a.
Proof.
  intros W H. destruct a as [t c b sz|t b|t p|t b u|t b|t|t i]; cbn [validb xvalid] in *; rewrite ?andb_true_iff in H.
  - destruct H as ((((((H1 & H2) & H3) & H4) & H5) & H6) & H7). split; [apply idleb_ok; exact H1|]. rewrite forallb_forall in H7.
    split; [apply Z.leb_le; exact H2|]. split; [apply Z.leb_le; exact H3|]. split; [apply Z.ltb_lt; exact H4|]. split; [apply Z.eqb_eq; exact H5|]. split; [apply Z.eqb_eq; exact H6|].
    intros y z c' K. specialize (H7 _ K). cbn in H7. apply orb_true_iff in H7 as [H7|H7]; [left|right]; apply Z.leb_le; exact H7.
  - destruct H as (((H1 & H2) & H3) & H4). split; [apply idleb_ok; exact H1|]. split; [apply knows_ok; exact H2|]. rewrite forallb_forall in H3, H4. split.
    + intros u K. specialize (H3 _ K). cbn in H3. rewrite Z.eqb_refl in H3. cbn in H3. rewrite orb_false_r in H3. apply Nat.eqb_eq. exact H3.
    + intros u v K. destruct (in_dec Nat.eq_dec u T) as [I|I]; [|rewrite (W u I) in K; destruct K]. specialize (H4 u I). rewrite forallb_forall in H4. specialize (H4 _ K). cbn in H4.
      rewrite Z.eqb_refl in H4. discriminate.
  - destruct H as (H1 & H2). split; [apply idleb_ok; exact H1|]. apply existsb_exists in H2 as ([[b sz] c] & M & K). rewrite !andb_true_iff in K. destruct K as ((K1 & K2) & K3).
    exists b, sz, c. split; [apply knows_ok; exact K1|]. split; [exact M|]. split; [apply Z.leb_le; exact K2|apply Z.ltb_lt; exact K3].
  - destruct H as (H1 & H2). split; [apply idleb_ok; exact H1|apply knows_ok; exact H2].
  - apply idleb_ok; exact H.
  - exact Logic.I.
  - exact Logic.I.
Qed.
Lemma step_buf fifo fence a s s' u : xstep fifo fence a s = Ok s' -> u <> actor a -> x_buf s' u = x_buf s u.
Proof.
  intros E N. assert (P : forall s1 t w, u <> t -> x_buf (x_push s1 t w) u = x_buf s1 u) by (intros; cbn; apply fupd_ne; assumption).
  destruct a as [v c b sz|v b|v p|v b t|v b|v|v i]; cbn [xstep actor] in *; try (injection E as <-; try (rewrite P by exact N); reflexivity).
  - unfold x_go in E. destruct (x_at s v) as [| |? ? ?|w|w|w|w|w|w q|w q|w q|? e|? b|b]; try (injection E as <-; try (rewrite P by exact N); reflexivity).
    + unfold x_loop in E. destruct w as [b a|b a|?|?]; try discriminate; (destruct (negb (mapped s b)); [discriminate|]); [destruct (a <? _)|]; injection E as <-; reflexivity.
    + destruct (get_id (target w)); try discriminate. injection E as <-. reflexivity.
    + destruct (x_lck s || waits fence s v); injection E as <-; reflexivity.
    + destruct (get_id (target w)); try discriminate. injection E as <-. reflexivity.
    + destruct (get_id (target w)); try discriminate. injection E as <-. rewrite P by exact N. reflexivity.
    + unfold x_read in E. destruct w; [destruct (_ =? 0); [|discriminate]| | |]; injection E as <-; reflexivity.
    + destruct w; try discriminate; injection E as <-; rewrite P by exact N; reflexivity.
    + destruct (negb (mapped s e)); [discriminate|]. injection E as <-. reflexivity.
    + destruct (b =? 0); [injection E as <-; reflexivity|]. destruct (negb (mapped s b)); [discriminate|]. injection E as <-. reflexivity.
    + destruct (waits fence s v); injection E as <-; reflexivity.
  - injection E as <-. unfold x_flush. destruct (nth_error (x_buf s v) i) as [w|]; [|reflexivity]. destruct (if fifo then _ else _); [|reflexivity]. cbn. apply fupd_ne. exact N.
Qed.
Fixpoint play (fifo fence : bool) (T : list nat) (l : list xact) (s : xst) : option xst :=
  match l with
  | [] => Some s
  | a :: l' => if validb T s a && inT T (actor a) then match xstep fifo fence a s with Ok s' => play fifo fence T l' s' | _ => None end else None
  end.
Lemma play_ok fifo fence T l : forall s s', xreach fifo fence s -> within T s -> play fifo fence T l s = Some s' -> xreach fifo fence s' /\ within T s'.
Proof.
  induction l as [|a l IH]; intros s s' R W; cbn; [intros E; injection E as <-; auto|]. destruct (validb T s a && inT T (actor a)) eqn:V; [|discriminate].
  apply andb_true_iff in V as (V & A). destruct (xstep fifo fence a s) as [s1| | |] eqn:E; try discriminate. apply IH; [exact (xreach_step _ _ _ _ _ R (validb_ok _ _ _ W V) E)|].
  intros u N. rewrite (step_buf _ _ _ _ _ _ E); [exact (W u N)|]. intros ->. apply N. apply inT_ok. exact A.
Qed.
Lemma play_0 fifo fence T l s : play fifo fence T l x0 = Some s -> xreach fifo fence s /\ within T s.
Proof. apply play_ok; [constructor|intros u _; reflexivity]. Qed.
Definition got (o : option xst) : xst := match o with Some s => s | None => x0 end.

Definition MB : Z := 1048576.
Definition T3 : list nat := [0; 1; 2]%nat.
Definition go (t n : nat) : list xact := repeat (SGo t) n.
Definition flush (t n : nat) : list xact := repeat (SFlush t 0) n.
(** Thread 0 registers 8..12 MB for chain 7; [SFlush 0 0] lets the header of the segment out so that the lock can be taken. *)
Definition reg1 : list xact := SReg 0 7 (8 * MB) (4 * MB) :: go 0 2 ++ flush 0 1 ++ go 0 11.
(** Thread 1 has got a pointer to a block of it and looks for it, while thread 0 registers 16..18 MB for chain 9: stores of thread 0 wait. *)
Definition l_case : list xact := reg1 ++ SGive 0 (8 * MB) 1 :: flush 0 5 ++ SFind 1 (11 * MB) :: go 1 1 ++ SReg 0 9 (16 * MB) (2 * MB) :: go 0 4.
Definition s_case : xst := got (play true true T3 l_case x0).
(** Thread 0 has given 8..12 MB back. *)
Definition l_back : list xact := reg1 ++ flush 0 4 ++ SUnreg 0 (8 * MB) :: go 0 9 ++ flush 0 2 ++ go 0 1.
Definition s_back : xst := got (play true true T3 l_back x0).
(** Thread 0 is about to put the header of region 0 in the table; thread 1 waits for the lock. *)
Definition l_make : list xact := SReg 0 7 (8 * MB) (4 * MB) :: go 0 2 ++ flush 0 1 ++ go 0 2 ++ SReg 1 9 (16 * MB) (2 * MB) :: go 1 2 ++ flush 1 1 ++ go 1 5.
Definition s_make : xst := got (play true true T3 l_make x0).
(** The pointer overtakes the entries. *)
Definition l_over : list xact := reg1 ++ SGive 0 (8 * MB) 1 :: flush 0 2 ++ [SFlush 0 2] ++ SFind 1 (11 * MB) :: go 1 3.
Definition s_over : xst := got (play false true T3 l_over x0).
(** The lock given back overtakes the region header. *)
Definition l_two : list xact := reg1 ++ [SFlush 0 1] ++ SReg 1 9 (16 * MB) (2 * MB) :: go 1 2 ++ flush 1 1 ++ go 1 4.
Definition s_twice : xst := got (play false true T3 l_two x0).
(** The segment goes back to the system while the zeros that erase its entries wait; thread 1 gets the same addresses. *)
Definition l_late : list xact := reg1 ++ flush 0 4 ++ SUnreg 0 (8 * MB) :: go 0 10 ++ SReg 1 9 (8 * MB) (4 * MB) :: go 1 2.
Definition s_late : xst := got (play true false T3 l_late x0).
