(** Mirror images of WENO reconstructions; periodic data. *)
From Verif Require Import Base Classic1DModel SemiModel SemiSpec SemiProofs HiWenoModel HiWenoSpec HiWenoProofs HiWenoProofs2.
Open Scope Q_scope.

Fixpoint reflect (p : list Q) : list Q := match p with [] => [] | c :: r => c :: map (Qmult (-1)) (reflect r) end.
Definition sgn (n : nat) : Q := qpow (-1) n.
Lemma sgn_S n : sgn (S n) = -1 * sgn n.
Proof. reflexivity. Qed.
Lemma sgn_sq n : sgn n * sgn n == 1.
Proof. induction n as [|n IH]; [reflexivity|]. rewrite sgn_S. rewrite <- IH. ring. Qed.
Lemma sgn_add n m : sgn (n + m) == sgn n * sgn m.
Proof. induction n as [|n IH]; [cbn [Nat.add]; change (sgn 0) with 1; ring|]. rewrite Nat.add_succ_l, !sgn_S, IH. ring. Qed.
Lemma reflect_length p : length (reflect p) = length p.
Proof. induction p as [|c p IH]; [reflexivity|]. cbn. rewrite map_length, IH. reflexivity. Qed.
Lemma dot_reflect : forall p f, dot (reflect p) f == dot p (fun n => sgn n * f n).
Proof.
  induction p as [|c p IH]; intro f; [reflexivity|]. cbn [reflect dot]. rewrite dot_map, IH.
  rewrite (dot_ext p (fun n => sgn (S n) * f (S n)) (fun n => -1 * (sgn n * f (S n)))) by (intros n _; rewrite sgn_S; ring).
  rewrite dot_scale. unfold sgn at 2. cbn [qpow]. ring.
Qed.
Lemma qpow_neg x y n : x == - y -> qpow x n == sgn n * qpow y n.
Proof. intro E. induction n as [|n IH]; [cbn [qpow]; change (sgn 0) with 1; ring|]. rewrite sgn_S. cbn [qpow]. rewrite IH, E. ring. Qed.
Lemma qpow_ext x y n : x == y -> qpow x n == qpow y n.
Proof. intro E. induction n as [|n IH]; [reflexivity|]. cbn [qpow]. rewrite IH, E. reflexivity. Qed.
Lemma value_reflect p x y : x == - y -> value (reflect p) x == value p y.
Proof.
  intro E. rewrite !value_dot, dot_reflect. apply dot_ext. intros n _. rewrite (qpow_neg x y n E).
  rewrite Qmult_assoc, sgn_sq. ring.
Qed.
Lemma avg_neg n j : avg n (- j) == sgn n * avg n j.
Proof.
  unfold avg, moment. rewrite (qpow_neg (inject_Z (- j) + (1 # 2)) (inject_Z j - (1 # 2))) by (rewrite inject_Z_opp; ring).
  rewrite (qpow_neg (inject_Z (- j) - (1 # 2)) (inject_Z j + (1 # 2))) by (rewrite inject_Z_opp; ring).
  rewrite sgn_S. ring.
Qed.
Lemma average_reflect p j : average (reflect p) j == average p (- j).
Proof. rewrite !average_dot, dot_reflect. apply dot_ext. intros n _. rewrite avg_neg. reflexivity. Qed.
Lemma mom_sgn n : mom n == sgn n * mom n.
Proof.
  pose proof (avg_neg n 0) as E. unfold avg in E. cbn [Z.opp] in E.
  assert (K : mom n == moment (inject_Z 0 - (1 # 2)) (inject_Z 0 + (1 # 2)) n).
  { unfold mom, moment. rewrite (qpow_ext (inject_Z 0 - (1 # 2)) (- (1 # 2))) by reflexivity.
    rewrite (qpow_ext (inject_Z 0 + (1 # 2)) (1 # 2)) by reflexivity. reflexivity. }
  rewrite K. exact E.
Qed.
Lemma downs_sgn f : forall l n, downs l (fun n => sgn n * f n) n == sgn l * sgn n * downs l f n.
Proof.
  induction l as [|l IH]; intro n; [cbn [downs]; change (sgn 0) with 1; ring|]. cbn [downs]. unfold down. rewrite IH.
  destruct n as [|n]; [cbn [Z.of_nat]; setoid_replace (inject_Z 0) with 0 by reflexivity; ring|].
  cbn [pred]. rewrite !sgn_S. ring.
Qed.
Lemma downs_scale a f : forall l n, downs l (fun n => a * f n) n == a * downs l f n.
Proof. induction l as [|l IH]; intro n; [reflexivity|]. cbn [downs]. unfold down. rewrite IH. ring. Qed.
Lemma dmom_sgn l n m : sgn n * sgn m * dmom l n m == dmom l n m.
Proof.
  assert (K : dmom l n m == sgn l * sgn n * (sgn l * sgn m * dmom l n m)).
  { transitivity (downs l (fun n' => sgn n' * (sgn l * sgn m * downs l (fun m' => mom (n' + m')) m)) n).
    2:{ rewrite downs_sgn. rewrite (downs_scale (sgn l * sgn m) (fun n' => downs l (fun m' => mom (n' + m')) m)). reflexivity. }
    unfold dmom. apply downs_ext. intro n'. transitivity (downs l (fun m' => sgn m' * (sgn n' * mom (n' + m'))) m).
    - apply downs_ext. intro m'. rewrite (mom_sgn (n' + m')) at 1. rewrite sgn_add. ring.
    - rewrite downs_sgn. rewrite (downs_scale (sgn n') (fun m' => mom (n' + m'))). ring. }
  rewrite K at 2. setoid_replace (sgn l * sgn n * (sgn l * sgn m * dmom l n m)) with ((sgn l * sgn l) * (sgn n * sgn m * dmom l n m)) by ring.
  rewrite sgn_sq. ring.
Qed.
Lemma smoothness_reflect p : smoothness (reflect p) == smoothness p.
Proof.
  rewrite !smoothness_dot, reflect_length, dot_reflect. apply dot_ext. intros n _. rewrite dot_reflect, <- dot_scale.
  apply dot_ext. intros m _. unfold smat. induction (seq 1 (length p - 1)) as [|l s IH]; cbn [fold_right]; [ring|].
  pose proof (dmom_sgn l n m) as K.
  match goal with |- ?a * (?b * (?d + ?F)) == _ => setoid_replace (a * (b * (d + F))) with (a * b * d + a * (b * F)) by ring end.
  rewrite K, IH. reflexivity.
Qed.
Lemma fits_reflect k p q i lo : fits k p q i lo ->
  fits k (reflect p) (fun j => q (- j)%Z) (- i) (1 - Z.of_nat k - lo).
Proof.
  intros (L & F). split; [rewrite reflect_length; exact L|]. intros j Hj. rewrite average_reflect.
  replace (- (- i + j))%Z with (i + - j)%Z by lia. apply F. lia.
Qed.
Lemma stencils_reflect k ps q i : stencils k ps q i -> stencils k (rev (map reflect ps)) (fun j => q (- j)%Z) (- i).
Proof.
  intros (L & F). split; [rewrite rev_length, map_length; exact L|]. intros r Hr.
  rewrite rev_nth by (rewrite map_length; lia). rewrite map_length, L.
  change [] with (reflect []) at 1. rewrite map_nth.
  pose proof (fits_reflect k _ q i _ (F (k - S r)%nat ltac:(lia))) as K.
  replace (- Z.of_nat r)%Z with (1 - Z.of_nat k - - Z.of_nat (k - S r))%Z by lia. exact K.
Qed.
Lemma qsum_app l1 l2 : qsum (l1 ++ l2) == qsum l1 + qsum l2.
Proof. unfold qsum. induction l1 as [|a l1 IH]; cbn [app fold_right]; [ring|]. rewrite IH. ring. Qed.
Lemma qsum_rev l : qsum (rev l) == qsum l.
Proof. induction l as [|a l IH]; [reflexivity|]. cbn [rev]. rewrite qsum_app, IH. unfold qsum. cbn [fold_right]. ring. Qed.
Lemma combine_app {A B} (a1 : list A) : forall (b1 : list B) a2 b2, length a1 = length b1 ->
  combine (a1 ++ a2) (b1 ++ b2) = combine a1 b1 ++ combine a2 b2.
Proof. induction a1 as [|x a1 IH]; intros [|y b1] a2 b2 H; try discriminate; [reflexivity|]. cbn. rewrite IH by (cbn in H; lia). reflexivity. Qed.
Lemma combine_rev {A B} : forall (a : list A) (b : list B), length a = length b -> combine (rev a) (rev b) = rev (combine a b).
Proof.
  induction a as [|x a IH]; intros [|y b] H; try discriminate; [reflexivity|]. cbn [rev combine]. cbn in H.
  rewrite combine_app by (rewrite !rev_length; lia). rewrite IH by lia. reflexivity.
Qed.
Lemma weno_value_reflect eps x y ds ps : x == - y -> length ds = length ps ->
  weno_value eps x (rev ds) (rev (map reflect ps)) == weno_value eps y ds ps.
Proof.
  intros E L. unfold weno_value, weighted. rewrite combine_rev by (rewrite map_length; exact L).
  rewrite !map_rev. rewrite combine_rev by (rewrite !map_length, combine_length, !map_length; lia). rewrite map_rev, !qsum_rev.
  revert ps L. assert (W : forall d p, weight eps d (reflect p) == weight eps d p) by (intros d p; unfold weight; rewrite smoothness_reflect; reflexivity).
  assert (K : forall ds ps, length ds = length ps ->
    qsum (map (fun dp => weight eps (fst dp) (snd dp)) (combine ds (map reflect ps))) == qsum (map (fun dp => weight eps (fst dp) (snd dp)) (combine ds ps)) /\
    qsum (map (fun dv => fst dv * snd dv) (combine (map (fun dp => weight eps (fst dp) (snd dp)) (combine ds (map reflect ps))) (map (fun p => value p x) (map reflect ps))))
    == qsum (map (fun dv => fst dv * snd dv) (combine (map (fun dp => weight eps (fst dp) (snd dp)) (combine ds ps)) (map (fun p => value p y) ps)))).
  { clear ds. induction ds as [|d ds IH]; intros [|p ps] L; try discriminate; [split; reflexivity|]. cbn in L.
    destruct (IH ps ltac:(lia)) as (I1 & I2). cbn [map combine qsum fold_right fst snd]. unfold qsum in I1, I2.
    rewrite I1, I2, W, (value_reflect p x y E). split; reflexivity. }
  intros ps L. destruct (K ds ps L) as (K1 & K2). rewrite K1, K2. reflexivity.
Qed.
Lemma tables_mirrored order table : weno_table order = Some table -> map st_wl table = rev (map st_wr table).
Proof.
  unfold weno_table. intro H.
  repeat match type of H with (if ?b then _ else _) = _ => destruct b; [injection H as <-; reflexivity|] end.
  discriminate.
Qed.

Lemma fortran_weno_keeps k table eps neq naux ng mx ql0 qr0 : check_table k table = true -> (Z.of_nat k <= ng)%Z -> (1 <= mx)%Z ->
  keeps_period neq naux ng mx (fortran_weno eps table ng mx ql0 qr0).
Proof.
  intros OK Hg Hmx q aux P _ m Hm. unfold fortran_weno, weno_loop. cbn [fst snd].
  assert (K1 : (1 <= k)%nat) by (destruct (table_facts k table OK) as (_ & H & _); lia).
  assert (SL : forall a b i, (a <= i)%Z -> (i < b)%Z -> in_slice a b i = true)
    by (intros a b i H1 H2; unfold in_slice; apply andb_true_intro; split; [apply Z.leb_le|apply Z.ltb_lt]; assumption).
  rewrite !SL by lia.
  assert (E : forall j j', j' = (j + mx)%Z -> (j = ng \/ j = ng + 1)%Z ->
    weno_cell eps table (fun i => q m (i - ng)%Z) j = weno_cell eps table (fun i => q m (i - ng)%Z) j').
  { intros j j' -> Hj. apply (cell_local k table OK). intros a Ha.
    replace (j + mx + a - ng)%Z with (j + a - ng + mx)%Z by lia. rewrite <- P by lia. reflexivity. }
  rewrite (E (0 + ng)%Z (mx + ng)%Z), (E (1 + ng)%Z (mx + 1 + ng)%Z) by lia. split; reflexivity.
Qed.
