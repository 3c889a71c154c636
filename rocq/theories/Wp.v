(** Weakest preconditions for the chain monad (total correctness: no UB, no abort, no fuel exhaustion). *)
From Verif Require Import Word Res Mem SizeClassModel ChainModel.
From Coq Require Import ZArith List Bool Lia.
Import ListNotations.
Open Scope Z_scope.

Definition wp {A} (x : M A) (s : st) (Q : A -> st -> Prop) : Prop :=
  match x s with Ok (a, s') => Q a s' | _ => False end.

Lemma wp_ret {A} (a : A) s (Q : A -> st -> Prop) : Q a s -> wp (ret a) s Q.
Proof. intros H. exact H. Qed.

Lemma wp_bind {A B} (x : M A) (f : A -> M B) s Q :
  wp x s (fun a s' => wp (f a) s' Q) -> wp (bind x f) s Q.
Proof.
  unfold wp, bind. destruct (x s) as [[a s']| | |]; cbn; auto.
Qed.

Lemma wp_bind_inv {A B} (x : M A) (f : A -> M B) s Q :
  wp (bind x f) s Q -> wp x s (fun a s' => wp (f a) s' Q).
Proof.
  unfold wp, bind. destruct (x s) as [[a s']| | |]; cbn; auto.
Qed.

Lemma wp_mono {A} (x : M A) s (Q Q' : A -> st -> Prop) :
  wp x s Q -> (forall a s', Q a s' -> Q' a s') -> wp x s Q'.
Proof. unfold wp. destruct (x s) as [[a s']| | |]; auto. Qed.

Lemma wp_run {A} (x : M A) s (Q : A -> st -> Prop) : wp x s Q -> exists a s', x s = Ok (a, s') /\ Q a s'.
Proof. unfold wp. destruct (x s) as [[a s']| | |]; intros H; try contradiction. eauto. Qed.

Lemma wp_of_run {A} (x : M A) s (Q : A -> st -> Prop) a s' : x s = Ok (a, s') -> Q a s' -> wp x s Q.
Proof. unfold wp. intros ->. auto. Qed.

Lemma wp_load a n s (Q : Z -> st -> Prop) :
  accb (srng s) a (Z.of_nat n) = true -> Q (ld (smem s) a n) s -> wp (loadn a n) s Q.
Proof. unfold wp, loadn. intros ->. auto. Qed.

Lemma wp_store a n v s (Q : unit -> st -> Prop) :
  accb (srng s) a (Z.of_nat n) = true -> Q tt (set_mem s (sto (smem s) a n v)) -> wp (storen a n v) s Q.
Proof. unfold wp, storen. intros ->. auto. Qed.

Lemma wp_assume b s (Q : unit -> st -> Prop) : b = true -> Q tt s -> wp (assume b) s Q.
Proof. intros -> H. exact H. Qed.

Lemma wp_lift {A} (r : res A) (a : A) s (Q : A -> st -> Prop) : r = Ok a -> Q a s -> wp (lift r) s Q.
Proof. intros -> H. exact H. Qed.

Lemma wp_getst s (Q : st -> st -> Prop) : Q s s -> wp getst s Q.
Proof. auto. Qed.

Lemma wp_modst f s (Q : unit -> st -> Prop) : Q tt (f s) -> wp (modst f) s Q.
Proof. auto. Qed.

(** Access checks *)
Lemma accb_intro r b z a n : In (b, z) r -> b <= a -> a + n <= b + z -> accb r a n = true.
Proof.
  intros H H1 H2. unfold accb. apply existsb_exists. exists (b, z). split; [exact H|]. lia.
Qed.

Lemma accb_elim r a n : accb r a n = true -> exists b z, In (b, z) r /\ b <= a /\ a + n <= b + z.
Proof.
  unfold accb. rewrite existsb_exists. intros ((b & z) & H & E). exists b, z. split; [exact H|]. lia.
Qed.

Lemma accb_sub r a n a' n' : accb r a n = true -> a <= a' -> a' + n' <= a + n -> accb r a' n' = true.
Proof.
  intros H H1 H2. apply accb_elim in H as (b & z & H & E1 & E2).
  eapply accb_intro; [exact H|lia|lia].
Qed.

(** Loads after stores, for the widths in use. *)
Lemma ld1_same m a v : 0 <= v < 256 -> ld (sto m a 1 v) a 1 = v.
Proof. intros H. apply ld_sto_same_small. change (256 ^ Z.of_nat 1) with 256. exact H. Qed.
Lemma ld7_same m a v : 0 <= v < 72057594037927936 -> ld (sto m a 7 v) a 7 = v.
Proof. intros H. apply ld_sto_same_small. change (256 ^ Z.of_nat 7) with 72057594037927936. exact H. Qed.
Lemma ld8_same m a v : 0 <= v < W64 -> ld (sto m a 8 v) a 8 = v.
Proof. intros H. apply ld_sto_same_small. change (256 ^ Z.of_nat 8) with W64. exact H. Qed.
Lemma ld1_range m a : 0 <= ld m a 1 < 256.
Proof. pose proof (ld_range m 1 a) as H. change (256 ^ Z.of_nat 1) with 256 in H. exact H. Qed.
Lemma ld7_range m a : 0 <= ld m a 7 < 72057594037927936.
Proof. pose proof (ld_range m 7 a) as H. change (256 ^ Z.of_nat 7) with 72057594037927936 in H. exact H. Qed.
Lemma ld8_range m a : 0 <= ld m a 8 < W64.
Proof. pose proof (ld_range m 8 a) as H. change (256 ^ Z.of_nat 8) with W64 in H. exact H. Qed.

(** [m'] differs from [m] only at addresses in [P]. *)
Definition chg (m m' : mem) (P : Z -> Prop) : Prop := forall x, m' x = m x \/ P x.

Lemma chg_refl m P : chg m m P.
Proof. intros x. left. reflexivity. Qed.

Lemma chg_sto m m' P a n v :
  chg m m' P -> (forall x, a <= x < a + Z.of_nat n -> P x) -> chg m (sto m' a n v) P.
Proof.
  intros H HP x.
  destruct (Z_lt_dec x a) as [L|L]; [rewrite sto_other by lia; apply H|].
  destruct (Z_lt_dec x (a + Z.of_nat n)) as [L2|L2]; [right; apply HP; lia|].
  rewrite sto_other by lia. apply H.
Qed.

Lemma chg_weaken m m' (P P' : Z -> Prop) : chg m m' P -> (forall x, P x -> P' x) -> chg m m' P'.
Proof. intros H HP x. destruct (H x) as [E|E]; [left; exact E|right; auto]. Qed.

Lemma chg_trans m m' m'' P : chg m m' P -> chg m' m'' P -> chg m m'' P.
Proof.
  intros H1 H2 x. destruct (H2 x) as [E|E]; [|right; exact E].
  rewrite E. apply H1.
Qed.

Lemma chg_ld m m' P a n : chg m m' P -> (forall x, a <= x < a + Z.of_nat n -> ~ P x) -> ld m' a n = ld m a n.
Proof.
  intros H HP. apply ld_ext. intros x Hx. destruct (H x) as [E|E]; [exact E|]. exfalso. exact (HP x Hx E).
Qed.
