(** The tables of weno.f90 satisfy the defining equations: checks by computation and what they mean. *)
From Verif Require Import Base Classic1DModel SemiModel HiWenoModel HiWenoSpec HiWenoProofs.
Open Scope Q_scope.

(** ** Averages of monomials as integers *)
Definition Nz (n : nat) (a : Z) : Z := ((2 * a + 1) ^ Z.of_nat (S n) - (2 * a - 1) ^ Z.of_nat (S n))%Z.
Definition Dz (n : nat) : Z := (2 ^ Z.of_nat (S n) * Z.of_nat (S n))%Z.
Lemma Dz_pos n : (0 < Dz n)%Z.
Proof. unfold Dz. apply Z.mul_pos_pos; [apply Z.pow_pos_nonneg; lia|lia]. Qed.
Lemma qpow_half (b : Z) (x : Q) : x * 2 == inject_Z b -> forall n, qpow x n * inject_Z (2 ^ Z.of_nat n) == inject_Z (b ^ Z.of_nat n).
Proof.
  intros E. induction n as [|n IH]; [reflexivity|]. rewrite Nat2Z.inj_succ, !Z.pow_succ_r by lia. rewrite !inject_Z_mult.
  cbn [qpow]. rewrite <- E, <- IH. change (inject_Z 2) with 2. ring.
Qed.
Lemma inject_nonzero z : z <> 0%Z -> ~ inject_Z z == 0.
Proof. intros H E. apply H. unfold Qeq, inject_Z in E. cbn [Qnum Qden] in E. lia. Qed.
Lemma avg_N n a : avg n a * inject_Z (Dz n) == inject_Z (Nz n a).
Proof.
  unfold avg, moment, Dz, Nz. unfold Zminus. rewrite inject_Z_plus, inject_Z_opp, inject_Z_mult.
  rewrite <- (qpow_half (2 * a + 1) (inject_Z a + (1 # 2))).
  2:{ rewrite inject_Z_plus, inject_Z_mult. change (inject_Z 2) with 2. change (inject_Z 1) with 1. ring. }
  rewrite <- (qpow_half (2 * a + -1) (inject_Z a - (1 # 2))).
  2:{ rewrite inject_Z_plus, inject_Z_mult. change (inject_Z 2) with 2. change (inject_Z (-1)) with (-1). ring. }
  unfold inv. assert (~ inject_Z (Z.of_nat (S n)) == 0).
  { apply inject_nonzero. lia. }
  field. exact H.
Qed.

(** ** The smoothness indicators *)
Definition common (l : list (Z * Z * Q)) : Z := fold_right (fun t d => Z.lcm (Zpos (Qden (snd t))) d) 1%Z l.
(** The terms with the same first factor together *)
Fixpoint grouped (l : list (Z * Z * Q)) : list (Z * list (Z * Q)) :=
  match l with
  | [] => []
  | t :: r =>
      match grouped r with
      | (a, bs) :: g => if (a =? fst (fst t))%Z then (a, (snd (fst t), snd t) :: bs) :: g
                        else (fst (fst t), [(snd (fst t), snd t)]) :: (a, bs) :: g
      | [] => [(fst (fst t), [(snd (fst t), snd t)])]
      end
  end.
Definition prepared (k : nat) (D : Z) (l : list (Z * Z * Q)) : list (list Z * list Z) :=
  map (fun g => let zs := map (fun t => (fst t, (Qnum (snd t) * (D / Zpos (Qden (snd t))))%Z)) (snd g) in
                (map (fun n => Nz n (fst g)) (seq 0 k),
                 map (fun m => fold_right (fun t v => (snd t * Nz m (fst t) + v)%Z) 0%Z zs) (seq 0 k)))
      (grouped l).
Definition entry (pr : list (list Z * list Z)) (n m : nat) : Z :=
  fold_right (fun g v => (nth n (fst g) 0 * nth m (snd g) 0 + v)%Z) 0%Z pr.
Definition check_entries (k : nat) (S : list (list Q)) (D : Z) (pr : list (list Z * list Z)) : bool :=
  forallb (fun n => forallb (fun m =>
    Qeq_bool (inject_Z (entry pr n m + entry pr m n)) (nth m (nth n S []) 0 * inject_Z (D * Dz n * Dz m))) (seq 0 (n + 1))) (seq 0 k).
Definition symmat (k : nat) : list (list Q) :=
  map (fun n => map (fun m => Qred (smat k n m + smat k m n)) (seq 0 (n + 1))) (seq 0 k).
Definition check_sigma (k : nat) (S : list (list Q)) (s : stencil) : bool :=
  let D := common (st_sigma s) in
  ((0 <? D)%Z && forallb (fun t => (D mod Zpos (Qden (snd t)) =? 0)%Z) (st_sigma s)
   && check_entries k S D (prepared k D (st_sigma s)))%bool.

Lemma nth_map_seq {A} (f : nat -> A) (k n : nat) (d : A) : (n < k)%nat -> nth n (map f (seq 0 k)) d = f n.
Proof.
  intro H. rewrite (nth_indep _ d (f 0%nat)) by (rewrite map_length, seq_length; exact H).
  rewrite map_nth. rewrite seq_nth by exact H. reflexivity.
Qed.
Lemma entry_value k D n m : (n < k)%nat -> (m < k)%nat -> forall l : list (Z * Z * Q),
  (forall t, In t l -> (D mod Zpos (Qden (snd t)) =? 0)%Z = true) ->
  fold_right (fun t v => snd t * (avg n (fst (fst t)) * avg m (snd (fst t))) + v) 0 l * inject_Z (D * Dz n * Dz m)
  == inject_Z (entry (prepared k D l) n m).
Proof.
  intros Hn Hm. induction l as [|t l IH]; intro H2; [cbn; ring|].
  cbn [fold_right]. rewrite Qmult_plus_distr_l. rewrite IH by (intros x Hx; apply H2; right; exact Hx). clear IH.
  specialize (H2 t (or_introl eq_refl)). apply Z.eqb_eq in H2.
  assert (E : snd t * inject_Z D == inject_Z (Qnum (snd t)) * inject_Z (D / Zpos (Qden (snd t)))).
  { rewrite <- inject_Z_mult. pose proof (Z.div_mod D (Zpos (Qden (snd t))) ltac:(lia)) as DM. rewrite H2, Z.add_0_r in DM.
    set (e := (D / Zpos (Qden (snd t)))%Z) in *. rewrite DM. destruct (snd t) as [u d]. cbn [Qnum Qden] in *.
    unfold Qeq, Qmult, inject_Z. cbn [Qnum Qden]. rewrite Pos.mul_1_r. ring. }
  assert (K : entry (prepared k D (t :: l)) n m =
    (Nz n (fst (fst t)) * (Qnum (snd t) * (D / Zpos (Qden (snd t))) * Nz m (snd (fst t))) + entry (prepared k D l) n m)%Z).
  { unfold entry, prepared. cbn [grouped]. destruct (grouped l) as [|[a bs] g].
    - cbn [map fold_right fst snd]. rewrite !nth_map_seq by assumption. cbn [map fold_right fst snd]. ring.
    - destruct (Z.eqb_spec a (fst (fst t))) as [->|N]; cbn [map fold_right fst snd]; rewrite !nth_map_seq by assumption;
        cbn [map fold_right fst snd]; ring. }
  rewrite K, inject_Z_plus, !inject_Z_mult, <- !avg_N. rewrite <- E. ring.
Qed.
Lemma check_sigma_sound k s : check_sigma k (symmat k) s = true ->
  forall p, length p = k ->
  fold_right (fun t v => snd t * average p (fst (fst t)) * average p (snd (fst t)) + v) 0 (st_sigma s) == smoothness p.
Proof.
  intros H p Hp. unfold check_sigma in H. rewrite !Bool.andb_true_iff in H. destruct H as ((H1 & H2) & H3).
  set (D := common (st_sigma s)) in *. apply Z.ltb_lt in H1. rewrite forallb_forall in H2.
  rewrite smoothness_dot. rewrite Hp.
  transitivity (fold_right (fun t v => snd t * dot p (fun n => avg n (fst (fst t))) * dot p (fun n => avg n (snd (fst t))) + v) 0 (st_sigma s)).
  { clear. induction (st_sigma s) as [|t l IH]; [reflexivity|]. cbn [fold_right]. rewrite IH, !average_dot. reflexivity. }
  rewrite sigma_dot. apply forms_agree. rewrite Hp. intros n m Hn Hm.
  set (T := fun n m => fold_right (fun t v => snd t * (avg n (fst (fst t)) * avg m (snd (fst t))) + v) 0 (st_sigma s)).
  assert (HT : forall n m, (n < k)%nat -> (m < k)%nat ->
     T n m * inject_Z (D * Dz n * Dz m) == inject_Z (entry (prepared k D (st_sigma s)) n m)).
  { clear n m Hn Hm. intros n m Hn Hm. unfold T. clearbody D. clear H3 T. apply entry_value; assumption. }
  unfold check_entries in H3. rewrite forallb_forall in H3.
  specialize (H3 n ltac:(apply in_seq; lia)). rewrite forallb_forall in H3. specialize (H3 m ltac:(apply in_seq; lia)).
  apply Qeq_bool_iff in H3. unfold symmat in H3. rewrite nth_map_seq in H3 by exact Hn. rewrite nth_map_seq in H3 by lia.
  rewrite Qred_correct in H3. rewrite inject_Z_plus in H3. rewrite <- !HT in H3 by lia.
  change (T n m + T m n == smat k n m + smat k m n).
  assert (NZ : ~ inject_Z (D * Dz n * Dz m) == 0).
  { apply inject_nonzero.
    pose proof (Dz_pos n). pose proof (Dz_pos m). assert (0 < D * Dz n * Dz m)%Z by (repeat apply Z.mul_pos_pos; lia). lia. }
  apply (Qmult_inj_r _ _ (inject_Z (D * Dz n * Dz m)) NZ). rewrite <- H3.
  replace (D * Dz m * Dz n)%Z with (D * Dz n * Dz m)%Z by ring. ring.
Qed.

(** ** The values *)
Definition rsum (l : list Q) : Q := fold_right (fun x v => Qred (x + v)) 0 l.
Lemma rsum_qsum l : rsum l == qsum l.
Proof. induction l as [|x l IH]; [reflexivity|]. cbn [rsum qsum fold_right]. rewrite Qred_correct. unfold rsum, qsum in IH. rewrite IH. reflexivity. Qed.
Definition navg (n : nat) (c : list (Z * Q)) : Q := qsum (map (fun t => snd t * inject_Z (Nz n (fst t))) c).
Definition favg (n : nat) (c : list (Z * Q)) : Q := qsum (map (fun t => snd t * avg n (fst t)) c).
Lemma navg_favg n c : navg n c == favg n c * inject_Z (Dz n).
Proof.
  unfold navg, favg. induction c as [|t c IH]; [reflexivity|]. cbn [map qsum fold_right]. unfold qsum in IH. rewrite IH, <- avg_N. ring.
Qed.
Lemma Dz_nonzero n : ~ inject_Z (Dz n) == 0.
Proof. apply inject_nonzero. pose proof (Dz_pos n). lia. Qed.
Definition check_value (k : nat) (x : Q) (c : list (Z * Q)) : bool :=
  forallb (fun n => Qeq_bool (navg n c) (qpow x n * inject_Z (Dz n))) (seq 0 k).
Lemma fr_qsum c q i : fr c q i == qsum (map (fun t => snd t * q (i + fst t)%Z) c).
Proof. unfold fr. induction c as [|t c IH]; [reflexivity|]. cbn [fold_right map qsum]. rewrite IH. reflexivity. Qed.
Lemma check_value_sound k x c : check_value k x c = true -> forall p, length p = k ->
  qsum (map (fun t => snd t * average p (fst t)) c) == value p x.
Proof.
  intros H p Hp. unfold check_value in H. rewrite forallb_forall in H. rewrite value_dot.
  transitivity (dot p (fun n => fold_right (fun t v => snd t * avg n (fst t) + v) 0 c)).
  - rewrite (dot_list p c (fun t n => snd t * avg n (fst t))). clear H. induction c as [|t c IH]; [reflexivity|].
    cbn [map qsum fold_right]. unfold qsum in IH. rewrite IH. rewrite dot_scale, average_dot. reflexivity.
  - apply dot_ext. intros n Hn. specialize (H n ltac:(apply in_seq; lia)). apply Qeq_bool_iff in H. rewrite navg_favg in H.
    apply Qmult_inj_r in H; [|apply Dz_nonzero]. rewrite <- H. unfold favg. clear. induction c as [|t c IH]; [reflexivity|]. cbn [map qsum fold_right]. unfold qsum in IH. rewrite IH. reflexivity.
Qed.

(** ** Offsets *)
Definition in_range (lo : Z) (k : nat) (a : Z) : bool := ((lo <=? a) && (a <? lo + Z.of_nat k))%Z%bool.
Definition check_offsets (lo : Z) (k : nat) (s : stencil) : bool :=
  (forallb (fun t => in_range lo k (fst (fst t)) && in_range lo k (snd (fst t))) (st_sigma s)
   && forallb (fun t => in_range lo k (fst t)) (st_fl s) && forallb (fun t => in_range lo k (fst t)) (st_fr s))%bool.
Definition check_stencil (k : nat) (S : list (list Q)) (r : nat) (s : stencil) : bool :=
  (check_offsets (- Z.of_nat r) k s && check_sigma k S s
   && check_value k (- (1 # 2)) (st_fl s) && check_value k (1 # 2) (st_fr s)
   && qltb 0 (st_wl s) && qltb 0 (st_wr s))%bool.
Definition check_ideal (k : nat) (x : Q) (w : stencil -> Q) (c : stencil -> list (Z * Q)) (table : list stencil) : bool :=
  forallb (fun n => Qeq_bool (rsum (map (fun s => w s * navg n (c s)) table)) (qpow x n * inject_Z (Dz n)))
    (seq 0 (2 * k - 1)).
Definition all_stencils (f : nat -> stencil -> bool) (table : list stencil) : bool :=
  forallb (fun rs => f (fst rs) (snd rs)) (combine (seq 0 (length table)) table).
Definition check_table (k : nat) (table : list stencil) : bool :=
  let S := symmat k in
  (Nat.eqb (length table) k && Nat.leb 1 k && Nat.leb k 9 && all_stencils (check_stencil k S) table
   && check_ideal k (- (1 # 2)) st_wl st_fl table && check_ideal k (1 # 2) st_wr st_fr table
   && Qeq_bool (rsum (map st_wl table)) 1 && Qeq_bool (rsum (map st_wr table)) 1
   && forallb (fun ab => Qeq_bool (st_wl (fst ab)) (st_wr (snd ab))) (combine table (rev table)))%bool.

(** ** Integrals of squares are not negative: expansion in Legendre polynomials *)
Definition legendre : list (list Q) :=
  [[1];
   [0; 2];
   [(-1 # 2); 0; 6];
   [0; -3; 0; 20];
   [(3 # 8); 0; -15; 0; 70];
   [0; (15 # 4); 0; -70; 0; 252];
   [(-5 # 16); 0; (105 # 4); 0; -315; 0; 924];
   [0; (-35 # 8); 0; (315 # 2); 0; -1386; 0; 3432]].
Definition leg (l : list Q) (n : nat) : Q := dot l (fun m => mom (n + m)).
Definition expansion (n m : nat) : Q :=
  fold_right (fun l v => inject_Z (2 * Z.of_nat (length l) - 1) * (leg l n * leg l m) + v) 0 legendre.
Lemma legendre_check : forallb (fun n => forallb (fun m => Qeq_bool (mom (n + m)) (expansion n m)) (seq 0 8)) (seq 0 8) = true.
Proof. vm_compute. reflexivity. Qed.
Lemma square_nonneg p : (length p <= 8)%nat -> 0 <= square_integral p.
Proof.
  intro H. rewrite square_dot. pose proof legendre_check as K. rewrite forallb_forall in K.
  rewrite (dot_ext p _ (fun n => dot p (expansion n))).
  2:{ intros n Hn. apply dot_ext. intros m Hm. specialize (K n ltac:(apply in_seq; lia)). rewrite forallb_forall in K.
      specialize (K m ltac:(apply in_seq; lia)). apply Qeq_bool_iff in K. exact K. }
  unfold expansion. clear K.
  rewrite (dot_ext p _ (fun n => fold_right (fun l v => dot p (fun m => inject_Z (2 * Z.of_nat (length l) - 1) * (leg l n * leg l m)) + v) 0 legendre)).
  2:{ intros n _. apply (dot_list p legendre (fun l m => inject_Z (2 * Z.of_nat (length l) - 1) * (leg l n * leg l m))). }
  rewrite (dot_list p legendre (fun l n => dot p (fun m => inject_Z (2 * Z.of_nat (length l) - 1) * (leg l n * leg l m)))).
  assert (PL : Forall (fun l => (1 <= length l)%nat) legendre) by (repeat constructor).
  induction PL as [|l ls Hl PL IH]; cbn [fold_right]; [lra|].
  assert (0 <= dot p (fun n => dot p (fun m => inject_Z (2 * Z.of_nat (length l) - 1) * (leg l n * leg l m)))); [|lra].
  rewrite (dot_ext p _ (fun n => (inject_Z (2 * Z.of_nat (length l) - 1) * dot p (leg l)) * leg l n)).
  2:{ intros n _. rewrite (dot_ext p _ (fun m => (inject_Z (2 * Z.of_nat (length l) - 1) * leg l n) * leg l m)) by (intros; ring).
      rewrite dot_scale. ring. }
  rewrite dot_scale. assert (0 <= inject_Z (2 * Z.of_nat (length l) - 1)) by (change 0 with (inject_Z 0); rewrite <- Zle_Qle; lia).
  nra.
Qed.
Lemma deriv_from_length : forall p n, length (deriv_from n p) = length p.
Proof. induction p as [|c p IH]; intro n; [reflexivity|]. cbn. rewrite IH. reflexivity. Qed.
Lemma deriv_length p : length (deriv p) = pred (length p).
Proof. destruct p; [reflexivity|]. cbn. apply deriv_from_length. Qed.
Lemma smoothness_nonneg p : (length p <= 9)%nat -> 0 <= smoothness p.
Proof.
  intro H. unfold smoothness. assert (K : (length (deriv p) <= 8)%nat) by (rewrite deriv_length; lia). revert K. clear H.
  generalize (length p - 1)%nat. intro n. revert p. induction n as [|n IH]; intros p K; cbn [derivatives map qsum fold_right]; [lra|].
  pose proof (square_nonneg _ K). specialize (IH (deriv p) ltac:(rewrite deriv_length; lia)). unfold qsum in IH. lra.
Qed.

(** ** The polynomials of the stencils exist *)
Lemma value_add p r x : value (add p r) x == value p x + value r x.
Proof. rewrite !value_dot. apply dot_padd. Qed.
Lemma value_scale a p x : value (map (Qmult a) p) x == a * value p x.
Proof. rewrite !value_dot. apply dot_map. Qed.
Lemma add_length : forall p r, length (add p r) = Nat.max (length p) (length r).
Proof. induction p as [|a p IH]; intros r; [reflexivity|]. destruct r; [reflexivity|]. cbn. rewrite IH. reflexivity. Qed.
(** (x - a) p *)
Definition factor (a : Q) (p : list Q) : list Q := add (map (Qmult (- a)) p) (0 :: p).
Lemma value_factor a p x : value (factor a p) x == (x - a) * value p x.
Proof. unfold factor. rewrite value_add, value_scale. cbn [value]. ring. Qed.
Lemma nodes_poly (x0 : Q) : forall n, exists p, length p = S n /\
  (forall j, (j < n)%nat -> value p (x0 + inject_Z (Z.of_nat j)) == 0) /\ ~ value p (x0 + inject_Z (Z.of_nat n)) == 0 /\
  (forall j, (n <= j)%nat -> ~ value p (x0 + inject_Z (Z.of_nat j)) == 0).
Proof.
  induction n as [|n (p & L & Z0 & N0 & N1)].
  - exists [1]. split; [reflexivity|]. split; [intros j Hj; lia|]. split; [cbn; intro E; lra|intros j _ E; cbn in E; lra].
  - exists (factor (x0 + inject_Z (Z.of_nat n)) p).
    assert (D : forall j, (S n <= j)%nat -> ~ value (factor (x0 + inject_Z (Z.of_nat n)) p) (x0 + inject_Z (Z.of_nat j)) == 0).
    { intros j Hj E. rewrite value_factor in E. apply Qmult_integral in E. destruct E as [E|E].
      - assert (K : inject_Z (Z.of_nat j) == inject_Z (Z.of_nat n)) by lra. apply (proj1 (inject_Z_injective _ _)) in K. lia.
      - exact (N1 j ltac:(lia) E). }
    split; [unfold factor; rewrite add_length, map_length; cbn; lia|]. split; [|split; [apply D; lia|exact D]].
    intros j Hj. rewrite value_factor. destruct (Nat.eq_dec j n) as [->|NE]; [ring|]. rewrite Z0 by lia. ring.
Qed.
Lemma interpolate (x0 : Q) (y : nat -> Q) : forall n, exists p, length p = S n /\
  forall j, (j <= n)%nat -> value p (x0 + inject_Z (Z.of_nat j)) == y j.
Proof.
  induction n as [|n (p & L & V)].
  - exists [y O]. split; [reflexivity|]. intros j Hj. replace j with O by lia. cbn. ring.
  - destruct (nodes_poly x0 (S n)) as (w & Lw & Zw & Nw & _).
    set (c := (y (S n) - value p (x0 + inject_Z (Z.of_nat (S n)))) / value w (x0 + inject_Z (Z.of_nat (S n)))).
    exists (add p (map (Qmult c) w)). split; [rewrite add_length, map_length; lia|].
    intros j Hj. rewrite value_add, value_scale. destruct (Nat.eq_dec j (S n)) as [->|NE].
    + unfold c. field. exact Nw.
    + rewrite Zw by lia. rewrite V by lia. ring.
Qed.
Lemma prim_deriv p x : value (primitive (deriv p)) x == value p x - value p 0.
Proof.
  rewrite value_primitive, dot_deriv, !value_dot, <- dot_sub. apply dot_ext. intros n _. unfold down.
  destruct n as [|n].
  - cbn. ring.
  - cbn [pred]. unfold inv. cbn [qpow]. assert (~ inject_Z (Z.of_nat (S n)) == 0) by (apply inject_nonzero; lia). field. exact H.
Qed.
Lemma fit_exists k q i lo : exists p, fits k p q i lo.
Proof.
  destruct k as [|k].
  - exists []. split; [reflexivity|]. intros j Hj. lia.
  - set (y := fun n => fold_right Qplus 0 (map (fun m => q (i + (lo + Z.of_nat m))%Z) (seq 0 n))).
    destruct (interpolate (inject_Z lo - (1 # 2)) y (S k)) as (P & L & V).
    exists (deriv P). split; [rewrite deriv_length, L; reflexivity|]. intros j Hj.
    unfold average, integral. rewrite !prim_deriv.
    pose proof (V (Z.to_nat (j - lo)) ltac:(lia)) as V1. pose proof (V (S (Z.to_nat (j - lo))) ltac:(lia)) as V2.
    assert (Y : y (S (Z.to_nat (j - lo))) == y (Z.to_nat (j - lo)) + q (i + j)%Z).
    { unfold y. rewrite seq_S, map_app, fold_right_app. cbn [map fold_right Nat.add].
      replace (lo + Z.of_nat (Z.to_nat (j - lo)))%Z with j by lia.
      generalize (map (fun m => q (i + (lo + Z.of_nat m))%Z) (seq 0 (Z.to_nat (j - lo)))). intro l.
      induction l as [|a l IH]; cbn [fold_right]; [ring|]. rewrite IH. ring. }
    rewrite Y in V2.
    assert (E1 : inject_Z lo - (1 # 2) + inject_Z (Z.of_nat (Z.to_nat (j - lo))) == inject_Z j - (1 # 2)).
    { rewrite Z2Nat.id by lia. unfold Zminus. rewrite inject_Z_plus, inject_Z_opp. ring. }
    assert (E2 : inject_Z lo - (1 # 2) + inject_Z (Z.of_nat (S (Z.to_nat (j - lo)))) == inject_Z j + (1 # 2)).
    { rewrite Nat2Z.inj_succ, Z2Nat.id by lia. unfold Z.succ, Zminus. rewrite !inject_Z_plus, inject_Z_opp. change (inject_Z 1) with 1. ring. }
    assert (VV : forall p a b, a == b -> value p a == value p b).
    { clear. induction p as [|c p IH]; intros a b E; [reflexivity|]. cbn [value]. rewrite E at 1. rewrite (IH a b E). reflexivity. }
    rewrite (VV P _ _ E1) in V1. rewrite (VV P _ _ E2) in V2. rewrite V1, V2. ring.
Qed.
Lemma stencils_exist k q i : exists ps, stencils k ps q i.
Proof.
  unfold stencils.
  assert (K : forall n, exists ps : list (list Q), length ps = n /\ forall r, (r < n)%nat -> fits k (nth r ps []) q i (- Z.of_nat r)).
  { induction n as [|n (ps & L & H)].
    - exists []. split; [reflexivity|]. intros r Hr. lia.
    - destruct (fit_exists k q i (- Z.of_nat n)) as (p & F). exists (ps ++ [p]). split; [rewrite app_length, L; cbn; lia|].
      intros r Hr. destruct (Nat.eq_dec r n) as [->|NE].
      + rewrite app_nth2 by lia. replace (n - length ps)%nat with O by lia. exact F.
      + rewrite app_nth1 by lia. apply H. lia. }
  apply K.
Qed.

(** ** Tables that pass the checks *)
Lemma all_stencils_nth f table : all_stencils f table = true ->
  forall r d, (r < length table)%nat -> f r (nth r table d) = true.
Proof.
  intros H r d Hr. unfold all_stencils in H. rewrite forallb_forall in H.
  specialize (H (r, nth r table d)). cbn [fst snd] in H. apply H.
  replace (r, nth r table d) with (nth r (combine (seq 0 (length table)) table) (O, d)).
  - apply nth_In. rewrite combine_length, seq_length. lia.
  - rewrite combine_nth by apply seq_length. rewrite seq_nth by exact Hr. reflexivity.
Qed.
Lemma Forall2_nth {A B} (R : A -> B -> Prop) (da : A) (db : B) : forall l1 l2, length l1 = length l2 ->
  (forall r, (r < length l1)%nat -> R (nth r l1 da) (nth r l2 db)) -> Forall2 R l1 l2.
Proof.
  induction l1 as [|a l1 IH]; intros [|b l2] L H; try discriminate; constructor.
  - exact (H O ltac:(cbn; lia)).
  - apply IH; [cbn in L; lia|]. intros r Hr. exact (H (S r) ltac:(cbn; lia)).
Qed.
Definition matches (x : Q) (c : stencil -> list (Z * Q)) (q : Z -> Q) (i : Z) (s : stencil) (p : list Q) : Prop :=
  sigma s q i == smoothness p /\ fr (c s) q i == value p x.
Lemma edge_value eps w c x q i : forall table ps, Forall2 (matches x c q i) table ps ->
  edge eps w c table q i == weno_value eps x (map w table) ps.
Proof.
  intros table ps H. unfold edge, weno_value, weighted.
  assert (K : fold_right (fun s v => omega eps (w s) s q i + v) 0 table
              == qsum (map (fun dp => weight eps (fst dp) (snd dp)) (combine (map w table) ps))).
  { induction H as [|s p table ps (H1 & H2) F IH]; [reflexivity|]. cbn [map combine fold_right qsum fst snd].
    unfold qsum in IH. rewrite IH. unfold omega, weight. rewrite H1. reflexivity. }
  rewrite K. clear K. apply Qdiv_comp; [|reflexivity].
  induction H as [|s p table ps (H1 & H2) F IH]; [reflexivity|]. cbn [map combine fold_right qsum fst snd].
  unfold qsum in IH. rewrite IH. unfold omega, weight. rewrite H1, H2. rewrite Qmult_comm. reflexivity.
Qed.
Lemma weno_value_bounds eps x ds ps lo hi : 0 < eps -> length ds = length ps -> ds <> [] -> Forall (fun d => 0 < d) ds ->
  Forall (fun p => (length p <= 9)%nat /\ lo <= value p x <= hi) ps -> lo <= weno_value eps x ds ps <= hi.
Proof.
  intros He L N Hd Hp. unfold weno_value, weighted.
  set (ws := map (fun dp => weight eps (fst dp) (snd dp)) (combine ds ps)).
  assert (Hw : Forall (fun w => 0 < w) ws /\ length ws = length ps /\ ws <> []).
  { unfold ws. clear ws. split; [|split].
    - rewrite Forall_forall. intros w Hw. apply in_map_iff in Hw. destruct Hw as ([d p] & <- & HI).
      pose proof (in_combine_l _ _ _ _ HI) as I1. pose proof (in_combine_r _ _ _ _ HI) as I2.
      rewrite Forall_forall in Hd, Hp. specialize (Hd d I1). destruct (Hp p I2) as (Lp & _).
      pose proof (smoothness_nonneg p Lp). cbn [fst snd]. unfold weight. apply Qlt_shift_div_l; nra.
    - rewrite map_length, combine_length. lia.
    - destruct ds; [congruence|]. destruct ps; [discriminate|]. discriminate. }
  destruct Hw as (Hw & Lw & Nw). clearbody ws. clear Hd L N ds.
  assert (B : lo * qsum ws <= qsum (map (fun dv => fst dv * snd dv) (combine ws (map (fun p => value p x) ps))) <= hi * qsum ws
              /\ 0 <= qsum ws).
  { clear Nw. revert ps Hp Lw. induction Hw as [|w ws Hw F IH]; intros ps Hp Lw; [cbn; split; [split; lra|lra]|].
    destruct ps as [|p ps]; [discriminate|]. apply Forall_cons_iff in Hp. destruct Hp as ((_ & Hp) & Hps).
    cbn in Lw. destruct (IH ps Hps ltac:(lia)) as ((B1 & B2) & B3). cbn [map combine qsum fold_right fst snd]. unfold qsum in *.
    set (X := fold_right Qplus 0 (map (fun dv => fst dv * snd dv) (combine ws (map (fun p => value p x) ps)))) in *.
    set (Y := fold_right Qplus 0 ws) in *. split; [split; nra|lra]. }
  assert (P : 0 < qsum ws).
  { destruct ws as [|w ws]; [congruence|]. apply Forall_cons_iff in Hw. destruct Hw as (H1 & H2). cbn [qsum fold_right].
    assert (0 <= fold_right Qplus 0 ws); [|lra]. clear -H2. induction H2; cbn [fold_right]; lra. }
  destruct B as ((B1 & B2) & _). split; [apply Qle_shift_div_l|apply Qle_shift_div_r]; assumption.
Qed.

Section table.
Variable k : nat.
Variable table : list stencil.
Hypothesis OK : check_table k table = true.

Lemma table_facts : length table = k /\ (1 <= k <= 9)%nat
  /\ (forall r d, (r < k)%nat -> check_stencil k (symmat k) r (nth r table d) = true)
  /\ check_ideal k (- (1 # 2)) st_wl st_fl table = true /\ check_ideal k (1 # 2) st_wr st_fr table = true
  /\ qsum (map st_wl table) == 1 /\ qsum (map st_wr table) == 1.
Proof.
  unfold check_table in OK. cbv zeta in OK. rewrite !Bool.andb_true_iff in OK. destruct OK as ((((((((H1 & H2) & H3) & H4) & H5) & H6) & H7) & H8) & _).
  apply Nat.eqb_eq in H1. apply Nat.leb_le in H2. apply Nat.leb_le in H3. apply Qeq_bool_iff in H7. apply Qeq_bool_iff in H8.
  rewrite rsum_qsum in H7, H8. repeat (split; [assumption || lia|]). split.
  - intros r d Hr. apply (all_stencils_nth _ _ H4 r d). lia.
  - repeat split; assumption.
Qed.

Lemma in_range_true lo n a : in_range lo n a = true -> (lo <= a < lo + Z.of_nat n)%Z.
Proof. unfold in_range. rewrite Bool.andb_true_iff, Z.leb_le, Z.ltb_lt. tauto. Qed.

Lemma fr_fits c p q i lo : forallb (fun t => in_range lo k (fst t)) c = true -> fits k p q i lo ->
  fr c q i == qsum (map (fun t => snd t * average p (fst t)) c).
Proof.
  intros H (_ & F). rewrite fr_qsum. induction c as [|t c IH]; [reflexivity|]. cbn [forallb] in H. rewrite Bool.andb_true_iff in H.
  destruct H as (H1 & H2). apply in_range_true in H1. cbn [map qsum fold_right]. unfold qsum in IH. rewrite (IH H2), (F _ H1). reflexivity.
Qed.
Lemma sigma_fits s p q i lo :
  forallb (fun t => in_range lo k (fst (fst t)) && in_range lo k (snd (fst t)))%bool (st_sigma s) = true -> fits k p q i lo ->
  sigma s q i == fold_right (fun t v => snd t * average p (fst (fst t)) * average p (snd (fst t)) + v) 0 (st_sigma s).
Proof.
  intros H (_ & F). unfold sigma. induction (st_sigma s) as [|t l IH]; [reflexivity|]. cbn [forallb] in H.
  rewrite !Bool.andb_true_iff in H. destruct H as ((H1 & H2) & H3). apply in_range_true in H1. apply in_range_true in H2.
  cbn [fold_right]. rewrite (IH H3), (F _ H1), (F _ H2). reflexivity.
Qed.
Lemma stencil_matches r d p q i : (r < k)%nat -> fits k p q i (- Z.of_nat r) ->
  matches (- (1 # 2)) st_fl q i (nth r table d) p /\ matches (1 # 2) st_fr q i (nth r table d) p
  /\ 0 < st_wl (nth r table d) /\ 0 < st_wr (nth r table d).
Proof.
  intros Hr F. destruct table_facts as (_ & _ & HS & _). specialize (HS r d Hr). unfold check_stencil, check_offsets in HS.
  rewrite !Bool.andb_true_iff in HS. destruct HS as (((((((O1 & O2) & O3) & C1) & C2) & C3) & W1) & W2).
  apply qltb_lt in W1. apply qltb_lt in W2. pose proof (proj1 F) as L.
  assert (ES : sigma (nth r table d) q i == smoothness p).
  { rewrite (sigma_fits _ p q i _ O1 F). apply (check_sigma_sound k _ C1 p L). }
  unfold matches. rewrite (fr_fits _ p q i _ O2 F), (fr_fits _ p q i _ O3 F).
  rewrite (check_value_sound _ _ _ C2 p L), (check_value_sound _ _ _ C3 p L). repeat split; try assumption; reflexivity.
Qed.
Lemma table_matches ps q i : stencils k ps q i ->
  Forall2 (matches (- (1 # 2)) st_fl q i) table ps /\ Forall2 (matches (1 # 2) st_fr q i) table ps.
Proof.
  intros (L & H). destruct table_facts as (LT & HK & _). set (d := mkStencil [] 0 0 [] []).
  split; apply (Forall2_nth _ d []); try lia; intros r Hr; destruct (stencil_matches r d (nth r ps []) q i ltac:(lia) (H r ltac:(lia))) as (A & B & _); assumption.
Qed.
Lemma cell_value eps ps q i : stencils k ps q i ->
  fst (weno_cell eps table q i) == weno_value eps (- (1 # 2)) (map st_wl table) ps /\
  snd (weno_cell eps table q i) == weno_value eps (1 # 2) (map st_wr table) ps.
Proof.
  intro H. destruct (table_matches ps q i H) as (A & B). unfold weno_cell. cbn [fst snd]. split; apply edge_value; assumption.
Qed.
Lemma weights_positive : Forall (fun d => 0 < d) (map st_wl table) /\ Forall (fun d => 0 < d) (map st_wr table).
Proof.
  destruct table_facts as (LT & HK & _). set (d := mkStencil [] 0 0 [] []).
  assert (K : forall s, In s table -> 0 < st_wl s /\ 0 < st_wr s).
  { intros s Hs. apply (In_nth _ _ d) in Hs. destruct Hs as (r & Hr & <-).
    destruct (fit_exists k (fun _ => 0) 0 (- Z.of_nat r)) as (p & F).
    destruct (stencil_matches r d p _ _ ltac:(lia) F) as (_ & _ & A & B). split; assumption. }
  split; rewrite Forall_forall; intros w Hw; apply in_map_iff in Hw; destruct Hw as (s & <- & Hs); apply K; exact Hs.
Qed.
Lemma table_ideal x w c : check_ideal k x w c table = true ->
  (forall ps q i, stencils k ps q i -> Forall2 (matches x c q i) table ps) ->
  (forall r d, (r < k)%nat -> forallb (fun t => in_range (- Z.of_nat r) k (fst t)) (c (nth r table d)) = true) ->
  Forall (fun d => 0 < d) (map w table) -> qsum (map w table) == 1 -> ideal k x (map w table).
Proof.
  intros HI HM HO HP HS. destruct table_facts as (LT & HK & _). split; [rewrite map_length; exact LT|]. split; [exact HP|]. split; [exact HS|].
  intros p ps q i F St. specialize (HM ps q i St). destruct F as (L & F).
  unfold check_ideal in HI. rewrite forallb_forall in HI. rewrite value_dot.
  transitivity (fold_right (fun s v => w s * qsum (map (fun t => snd t * average p (fst t)) (c s)) + v) 0 table).
  - assert (HO' : Forall (fun s => forallb (fun t => in_range (1 - Z.of_nat k) (2 * k - 1) (fst t)) (c s) = true) table).
    { rewrite Forall_forall. intros s Hs. set (d := mkStencil [] 0 0 [] []). apply (In_nth _ _ d) in Hs. destruct Hs as (r & Hr & <-).
      specialize (HO r d ltac:(lia)). rewrite forallb_forall in *. intros t Ht. specialize (HO t Ht). apply in_range_true in HO.
      unfold in_range. rewrite Bool.andb_true_iff, Z.leb_le, Z.ltb_lt. lia. }
    clear -HM HO' F. unfold weighted. induction HM as [|s p' table ps (_ & H) FF IH]; [reflexivity|].
    apply Forall_cons_iff in HO'. destruct HO' as (O1 & O2). cbn [map combine qsum fold_right fst snd]. unfold qsum in IH. rewrite (IH O2).
    apply Qplus_inj_r. apply Qmult_comp; [reflexivity|]. rewrite <- H. rewrite fr_qsum. unfold qsum. clear -O1 F.
    induction (c s) as [|t l IH]; [reflexivity|]. cbn [forallb] in O1. rewrite Bool.andb_true_iff in O1. destruct O1 as (O1 & O2).
    apply in_range_true in O1. cbn [map fold_right]. rewrite (IH O2), (F _ O1). reflexivity.
  - transitivity (dot p (fun n => fold_right (fun s v => w s * favg n (c s) + v) 0 table)).
    + rewrite (dot_list p table (fun s n => w s * favg n (c s))). clear. induction table as [|s l IH]; [reflexivity|].
      cbn [fold_right]. rewrite IH. apply Qplus_inj_r. rewrite dot_scale. apply Qmult_comp; [reflexivity|].
      unfold favg, qsum. induction (c s) as [|t l' IH']; cbn [map fold_right]; [symmetry; apply dot_zero|].
      rewrite IH'. rewrite (dot_add p (fun n => snd t * avg n (fst t)) (fun n => fold_right Qplus 0 (map (fun t => snd t * avg n (fst t)) l'))).
      rewrite dot_scale, average_dot. reflexivity.
    + apply dot_ext. intros n Hn. specialize (HI n ltac:(apply in_seq; lia)). apply Qeq_bool_iff in HI. rewrite rsum_qsum in HI.
      apply (Qmult_inj_r _ _ (inject_Z (Dz n)) (Dz_nonzero n)). rewrite <- HI. clear.
      induction table as [|s l IH]; cbn [map qsum fold_right]; [ring|]. rewrite Qmult_plus_distr_l, IH. unfold qsum. rewrite navg_favg. ring.
Qed.
Lemma ideal_left : ideal k (- (1 # 2)) (map st_wl table).
Proof.
  destruct table_facts as (LT & HK & HS & HL & HR & SL & SR). apply (table_ideal _ _ st_fl HL).
  - intros ps q i St. apply (table_matches ps q i St).
  - intros r d Hr. specialize (HS r d Hr). unfold check_stencil, check_offsets in HS. rewrite !Bool.andb_true_iff in HS. tauto.
  - apply weights_positive.
  - exact SL.
Qed.
Lemma ideal_right : ideal k (1 # 2) (map st_wr table).
Proof.
  destruct table_facts as (LT & HK & HS & HL & HR & SL & SR). apply (table_ideal _ _ st_fr HR).
  - intros ps q i St. apply (table_matches ps q i St).
  - intros r d Hr. specialize (HS r d Hr). unfold check_stencil, check_offsets in HS. rewrite !Bool.andb_true_iff in HS. tauto.
  - apply weights_positive.
  - exact SR.
Qed.
(** Only the 2k-1 cells around i are read *)
Lemma cell_local eps q q' i i' : (forall a, (Z.abs a < Z.of_nat k)%Z -> q (i + a)%Z = q' (i' + a)%Z) ->
  weno_cell eps table q i = weno_cell eps table q' i'.
Proof.
  intro H. destruct table_facts as (LT & HK & HS & _). set (d := mkStencil [] 0 0 [] []).
  assert (K : forall s, In s table -> sigma s q i = sigma s q' i' /\ fr (st_fl s) q i = fr (st_fl s) q' i' /\ fr (st_fr s) q i = fr (st_fr s) q' i').
  { intros s Hs. apply (In_nth _ _ d) in Hs. destruct Hs as (r & Hr & <-). specialize (HS r d ltac:(lia)).
    unfold check_stencil, check_offsets in HS. rewrite !Bool.andb_true_iff in HS. destruct HS as (((((((O1 & O2) & O3) & _) & _) & _) & _) & _).
    assert (A : forall a, in_range (- Z.of_nat r) k a = true -> q (i + a)%Z = q' (i' + a)%Z).
    { intros a Ha. apply in_range_true in Ha. apply H. lia. }
    assert (FR : forall c, forallb (fun t => in_range (- Z.of_nat r) k (fst t)) c = true -> fr c q i = fr c q' i').
    { intros c. unfold fr. induction c as [|t c IH]; intro Hc; [reflexivity|]. cbn [forallb] in Hc. rewrite Bool.andb_true_iff in Hc.
      destruct Hc as (Hc & Hr'). cbn [fold_right]. rewrite (IH Hr'), (A _ Hc). reflexivity. }
    split; [|split; apply FR; assumption]. unfold sigma. induction (st_sigma (nth r table d)) as [|t l IH]; [reflexivity|].
    cbn [forallb] in O1. rewrite !Bool.andb_true_iff in O1. destruct O1 as ((A1 & A2) & A3). cbn [fold_right].
    rewrite (IH A3), (A _ A1), (A _ A2). reflexivity. }
  unfold weno_cell, edge, omega. clear -K.
  assert (E : forall w (c : stencil -> list (Z * Q)), (forall s, In s table -> fr (c s) q i = fr (c s) q' i') ->
    fold_right (fun s v => fr (c s) q i * (w s / ((eps + sigma s q i) * (eps + sigma s q i))) + v) 0 table =
    fold_right (fun s v => fr (c s) q' i' * (w s / ((eps + sigma s q' i') * (eps + sigma s q' i'))) + v) 0 table /\
    fold_right (fun s v => w s / ((eps + sigma s q i) * (eps + sigma s q i)) + v) 0 table =
    fold_right (fun s v => w s / ((eps + sigma s q' i') * (eps + sigma s q' i')) + v) 0 table).
  { intros w c Hc. induction table as [|s l IH]; [split; reflexivity|]. cbn [fold_right].
    destruct IH as (IH1 & IH2); [intros x Hx; apply K; right; exact Hx|intros x Hx; apply Hc; right; exact Hx|].
    rewrite IH1, IH2. rewrite (Hc s (or_introl eq_refl)). destruct (K s (or_introl eq_refl)) as (-> & _). split; reflexivity. }
  destruct (E st_wl st_fl ltac:(intros s Hs; apply K; exact Hs)) as (-> & ->).
  destruct (E st_wr st_fr ltac:(intros s Hs; apply K; exact Hs)) as (-> & ->). reflexivity.
Qed.
End table.

Lemma tables_ok order table : weno_table order = Some table ->
  order = (2 * Z.of_nat (Z.to_nat (ghost_cells order)) - 1)%Z /\ check_table (Z.to_nat (ghost_cells order)) table = true.
Proof.
  unfold weno_table. intro H.
  repeat match type of H with (if (order =? ?n)%Z then _ else _) = _ =>
    destruct (Z.eqb_spec order n) as [E|_]; [rewrite E; injection H as <-; split; [reflexivity|vm_compute; reflexivity]|] end.
  discriminate.
Qed.
