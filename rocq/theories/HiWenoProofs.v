(** Proofs about WENO reconstructions of orders 5 to 17. *)
From Verif Require Import Base Classic1DModel SemiModel HiWenoModel HiWenoSpec.
Open Scope Q_scope.

(** ** Linear functionals of polynomials *)
Fixpoint dot (p : list Q) (f : nat -> Q) : Q := match p with [] => 0 | c :: r => c * f O + dot r (fun n => f (S n)) end.

Lemma dot_ext : forall p f g, (forall n, (n < length p)%nat -> f n == g n) -> dot p f == dot p g.
Proof.
  induction p as [|c p IH]; intros f g H; [reflexivity|]. cbn [dot].
  rewrite (H O) by (cbn; lia). rewrite (IH (fun n => f (S n)) (fun n => g (S n))); [reflexivity|].
  intros n Hn. apply H. cbn. lia.
Qed.
Lemma dot_add : forall p f g, dot p (fun n => f n + g n) == dot p f + dot p g.
Proof. induction p as [|c p IH]; intros f g; cbn [dot]; [ring|]. rewrite (IH (fun n => f (S n)) (fun n => g (S n))). ring. Qed.
Lemma dot_scale : forall p a f, dot p (fun n => a * f n) == a * dot p f.
Proof. induction p as [|c p IH]; intros a f; cbn [dot]; [ring|]. rewrite (IH a (fun n => f (S n))). ring. Qed.
Lemma dot_zero p : dot p (fun _ => 0) == 0.
Proof. induction p as [|c p IH]; cbn [dot]; [reflexivity|]. rewrite IH. ring. Qed.
Lemma dot_sub p f g : dot p (fun n => f n - g n) == dot p f - dot p g.
Proof.
  rewrite (dot_ext p _ (fun n => f n + (-1) * g n)) by (intros; ring). rewrite dot_add, dot_scale. ring.
Qed.
Lemma dot_swap : forall p r (h : nat -> nat -> Q), dot p (fun n => dot r (h n)) == dot r (fun m => dot p (fun n => h n m)).
Proof.
  induction p as [|c p IH]; intros r h; cbn [dot]; [symmetry; apply dot_zero|].
  rewrite (IH r (fun n m => h (S n) m)). rewrite (dot_add r (fun m => c * h O m) (fun m => dot p (fun n => h (S n) m))).
  rewrite (dot_scale r c (h O)). reflexivity.
Qed.
Lemma dot_list {A} (p : list Q) (l : list A) (h : A -> nat -> Q) :
  dot p (fun n => fold_right (fun t v => h t n + v) 0 l) == fold_right (fun t v => dot p (h t) + v) 0 l.
Proof.
  induction l as [|t l IH]; cbn [fold_right]; [apply dot_zero|].
  rewrite (dot_add p (h t) (fun n => fold_right (fun t v => h t n + v) 0 l)). rewrite IH. reflexivity.
Qed.
Lemma dot_map a : forall p f, dot (map (Qmult a) p) f == a * dot p f.
Proof. induction p as [|c p IH]; intro f; cbn [map dot]; [ring|]. rewrite IH. ring. Qed.
Lemma dot_padd : forall p r f, dot (add p r) f == dot p f + dot r f.
Proof.
  induction p as [|a p IH]; intros r f; [cbn; ring|]. destruct r as [|b r]; [cbn; ring|].
  cbn [add dot]. rewrite IH. ring.
Qed.
Lemma dot_mul : forall p r f, dot (mul p r) f == dot p (fun n => dot r (fun m => f (n + m)%nat)).
Proof.
  induction p as [|a p IH]; intros r f; [reflexivity|]. cbn [mul]. rewrite dot_padd, dot_map. cbn [dot]. rewrite IH.
  setoid_replace (0 * f O) with 0 by ring. rewrite Qplus_0_l. reflexivity.
Qed.
Lemma dot_deriv_from : forall p n f, dot (deriv_from n p) f == dot p (fun j => inject_Z (n + Z.of_nat j) * f j).
Proof.
  induction p as [|c p IH]; intros n f; [reflexivity|]. cbn [deriv_from dot]. rewrite IH. rewrite Z.add_0_r.
  rewrite (dot_ext p _ (fun j => inject_Z (n + Z.of_nat (S j)) * f (S j))); [ring|].
  intros j _. replace (n + 1 + Z.of_nat j)%Z with (n + Z.of_nat (S j))%Z by lia. reflexivity.
Qed.
Definition down (f : nat -> Q) (n : nat) : Q := inject_Z (Z.of_nat n) * f (pred n).
Lemma dot_deriv p f : dot (deriv p) f == dot p (down f).
Proof.
  destruct p as [|c p]; [reflexivity|]. cbn [deriv dot]. rewrite dot_deriv_from.
  unfold down at 1. cbn [Z.of_nat inject_Z]. setoid_replace (c * (inject_Z 0 * f (pred 0))) with 0 by (unfold inject_Z; ring).
  rewrite Qplus_0_l. apply dot_ext. intros n _. unfold down. replace (1 + Z.of_nat n)%Z with (Z.of_nat (S n)) by lia. reflexivity.
Qed.
Fixpoint qpow (x : Q) (n : nat) : Q := match n with O => 1 | S n => x * qpow x n end.
Lemma value_dot : forall p x, value p x == dot p (qpow x).
Proof.
  induction p as [|c p IH]; intro x; [reflexivity|]. cbn [value dot qpow]. rewrite IH.
  rewrite (dot_scale p x (qpow x)). ring.
Qed.
Definition inv (n : nat) : Q := / inject_Z (Z.of_nat n).
Lemma dot_prim_from : forall p n f, dot (prim_from n p) f == dot p (fun j => / inject_Z (n + Z.of_nat j) * f j).
Proof.
  induction p as [|c p IH]; intros n f; [reflexivity|]. cbn [prim_from dot]. rewrite IH. rewrite Z.add_0_r.
  rewrite (dot_ext p _ (fun j => / inject_Z (n + Z.of_nat (S j)) * f (S j))); [unfold Qdiv; ring|].
  intros j _. replace (n + 1 + Z.of_nat j)%Z with (n + Z.of_nat (S j))%Z by lia. reflexivity.
Qed.
Lemma value_primitive p x : value (primitive p) x == dot p (fun n => inv (S n) * qpow x (S n)).
Proof.
  rewrite value_dot. unfold primitive. cbn [dot]. rewrite dot_prim_from. setoid_replace (0 * qpow x 0) with 0 by ring.
  rewrite Qplus_0_l. apply dot_ext. intros n _. unfold inv. replace (1 + Z.of_nat n)%Z with (Z.of_nat (S n)) by lia. reflexivity.
Qed.
(** The integral of x^n *)
Definition moment (a b : Q) (n : nat) : Q := inv (S n) * (qpow b (S n) - qpow a (S n)).
Lemma integral_dot p a b : integral p a b == dot p (moment a b).
Proof.
  unfold integral. rewrite !value_primitive, <- dot_sub. apply dot_ext. intros n _. unfold moment. ring.
Qed.
Definition avg (n : nat) (j : Z) : Q := moment (inject_Z j - (1 # 2)) (inject_Z j + (1 # 2)) n.
Lemma average_dot p j : average p j == dot p (fun n => avg n j).
Proof. apply integral_dot. Qed.
Definition mom : nat -> Q := moment (- (1 # 2)) (1 # 2).
Lemma square_dot p : square_integral p == dot p (fun n => dot p (fun m => mom (n + m))).
Proof. unfold square_integral. rewrite integral_dot. apply dot_mul. Qed.

(** ** Smoothness as a quadratic form of the coefficients *)
Fixpoint downs (l : nat) (f : nat -> Q) : nat -> Q := match l with O => f | S l => down (downs l f) end.
Fixpoint derivs (l : nat) (p : list Q) : list Q := match l with O => p | S l => derivs l (deriv p) end.
Lemma down_ext f g : (forall n, f n == g n) -> forall n, down f n == down g n.
Proof. intros H n. unfold down. rewrite H. reflexivity. Qed.
Lemma downs_ext l f g : (forall n, f n == g n) -> forall n, downs l f n == downs l g n.
Proof. intros H. induction l as [|l IH]; [exact H|]. cbn [downs]. apply down_ext. exact IH. Qed.
Lemma dot_derivs : forall l p f, dot (derivs l p) f == dot p (downs l f).
Proof. induction l as [|l IH]; intros p f; [reflexivity|]. cbn [derivs downs]. rewrite IH, dot_deriv. reflexivity. Qed.
Lemma downs_dot p (h : nat -> nat -> Q) : forall l n, downs l (fun n => dot p (h n)) n == dot p (fun m => downs l (fun n' => h n' m) n).
Proof.
  induction l as [|l IH]; intro n; [reflexivity|]. cbn [downs]. unfold down. rewrite IH.
  rewrite <- (dot_scale p). reflexivity.
Qed.
(** The integral of the product of the l-th derivatives of x^n and x^m *)
Definition dmom (l n m : nat) : Q := downs l (fun n' => downs l (fun m' => mom (n' + m')) m) n.
Lemma square_derivs l p : square_integral (derivs l p) == dot p (fun n => dot p (fun m => dmom l n m)).
Proof.
  rewrite square_dot, dot_derivs. apply dot_ext. intros n _. unfold dmom.
  rewrite (downs_ext l _ (fun n' => dot p (fun m => downs l (fun m' => mom (n' + m')) m))).
  - apply downs_dot.
  - intro n'. apply dot_derivs.
Qed.
Definition smat (k n m : nat) : Q := fold_right (fun l v => dmom l n m + v) 0 (seq 1 (k - 1)).
Lemma derivatives_seq : forall n l p, derivatives n (derivs l p) = map (fun l => derivs l p) (seq (S l) n).
Proof.
  assert (D : forall l p, deriv (derivs l p) = derivs (S l) p).
  { induction l as [|l IH]; intro p; [reflexivity|]. cbn [derivs]. rewrite IH. reflexivity. }
  induction n as [|n IH]; intros l p; [reflexivity|]. cbn [derivatives seq map]. rewrite D. f_equal. apply IH.
Qed.
Lemma smoothness_dot p : smoothness p == dot p (fun n => dot p (fun m => smat (length p) n m)).
Proof.
  unfold smoothness. pose proof (derivatives_seq (length p - 1) 0 p) as D. cbn [derivs] in D. rewrite D. clear D.
  rewrite map_map. unfold smat. set (s := seq 1 (length p - 1)).
  rewrite (dot_ext p _ (fun n => fold_right (fun l v => dot p (fun m => dmom l n m) + v) 0 s)).
  2:{ intros n _. apply (dot_list p s (fun l m => dmom l n m)). }
  rewrite (dot_list p s (fun l n => dot p (fun m => dmom l n m))).
  clearbody s. induction s as [|l s IH]; [reflexivity|]. cbn [map qsum fold_right]. rewrite square_derivs.
  unfold qsum in IH. rewrite IH. reflexivity.
Qed.
(** Two quadratic forms with the same symmetric part *)
Lemma forms_agree (p : list Q) (T U : nat -> nat -> Q) :
  (forall n m, (n < length p)%nat -> (m <= n)%nat -> T n m + T m n == U n m + U m n) ->
  dot p (fun n => dot p (T n)) == dot p (fun n => dot p (U n)).
Proof.
  intro H.
  assert (H' : forall n m, (n < length p)%nat -> (m < length p)%nat -> T n m + T m n == U n m + U m n).
  { intros n m Hn Hm. destruct (le_lt_dec m n) as [L|L]; [apply H; assumption|].
    rewrite (Qplus_comm (T n m)), (Qplus_comm (U n m)). apply H; lia. }
  assert (K : forall V : nat -> nat -> Q, dot p (fun n => dot p (fun m => V n m + V m n)) == 2 * dot p (fun n => dot p (V n))).
  { intro V. rewrite (dot_ext p _ (fun n => dot p (V n) + dot p (fun m => V m n))) by (intros; apply dot_add).
    rewrite dot_add. rewrite <- (dot_swap p p V). ring. }
  assert (E : 2 * dot p (fun n => dot p (T n)) == 2 * dot p (fun n => dot p (U n))).
  { rewrite <- !K. apply dot_ext. intros n Hn. apply dot_ext. intros m Hm. apply H'; assumption. }
  lra.
Qed.
Lemma sigma_dot s p :
  fold_right (fun t v => snd t * dot p (fun n => avg n (fst (fst t))) * dot p (fun n => avg n (snd (fst t))) + v) 0 (st_sigma s)
  == dot p (fun n => dot p (fun m => fold_right (fun t v => snd t * (avg n (fst (fst t)) * avg m (snd (fst t))) + v) 0 (st_sigma s))).
Proof.
  rewrite (dot_ext p _ (fun n => fold_right (fun t v => dot p (fun m => snd t * (avg n (fst (fst t)) * avg m (snd (fst t)))) + v) 0 (st_sigma s))).
  2:{ intros n _. apply (dot_list p (st_sigma s) (fun t m => snd t * (avg n (fst (fst t)) * avg m (snd (fst t))))). }
  rewrite (dot_list p (st_sigma s) (fun t n => dot p (fun m => snd t * (avg n (fst (fst t)) * avg m (snd (fst t)))))).
  induction (st_sigma s) as [|t l IH]; [reflexivity|]. cbn [fold_right]. rewrite IH. apply Qplus_inj_r.
  rewrite (dot_ext p (fun n => dot p _) (fun n => (snd t * dot p (fun m => avg m (snd (fst t)))) * avg n (fst (fst t)))).
  - rewrite dot_scale. ring.
  - intros n _. rewrite (dot_ext p _ (fun m => (snd t * avg n (fst (fst t))) * avg m (snd (fst t)))) by (intros; ring).
    rewrite dot_scale. ring.
Qed.
