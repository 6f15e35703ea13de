(** Proofs about the 1D classic solver, part 1: closed forms of both kernels. *)
From Verif Require Import Base BCModel BCSpec BCProofs LimiterModel LimiterProofs Classic1DModel.

(** ** Sums *)
Lemma zsum_ext lo n f g : (forall i, (lo <= i < lo + Z.of_nat n)%Z -> f i = g i) -> zsum lo n f = zsum lo n g.
Proof. induction n; intros H; cbn [zsum]; [reflexivity|]. rewrite IHn, H by (intros; try apply H; lia). reflexivity. Qed.
Lemma zsum_eq lo n f g : (forall i, (lo <= i < lo + Z.of_nat n)%Z -> f i == g i) -> zsum lo n f == zsum lo n g.
Proof. induction n; intros H; cbn [zsum]; [reflexivity|]. rewrite IHn, H by (intros; try apply H; lia). reflexivity. Qed.
Lemma zsum_plus lo n f g : zsum lo n (fun i => f i + g i) == zsum lo n f + zsum lo n g.
Proof. induction n; cbn [zsum]; [reflexivity|]. rewrite IHn. ring. Qed.
Lemma zsum_minus lo n f g : zsum lo n (fun i => f i - g i) == zsum lo n f - zsum lo n g.
Proof. induction n; cbn [zsum]; [reflexivity|]. rewrite IHn. ring. Qed.
Lemma zsum_scale lo n k f : zsum lo n (fun i => k * f i) == k * zsum lo n f.
Proof. induction n; cbn [zsum]; [ring|]. rewrite IHn. ring. Qed.
Lemma zsum_zero lo n f : (forall i, (lo <= i < lo + Z.of_nat n)%Z -> f i == 0) -> zsum lo n f == 0.
Proof. induction n; intros H; cbn [zsum]; [reflexivity|]. rewrite IHn, H by (intros; try apply H; lia). reflexivity. Qed.
Lemma zsum_telescope lo n g : zsum lo n (fun i => g (i + 1)%Z - g i) == g (lo + Z.of_nat n)%Z - g lo.
Proof.
  induction n; cbn [zsum].
  - replace (lo + Z.of_nat 0)%Z with lo by lia. ring.
  - rewrite IHn. replace (lo + Z.of_nat n + 1)%Z with (lo + Z.of_nat (S n))%Z by lia. ring.
Qed.
Lemma zsum_nonneg lo n f : (forall i, (lo <= i < lo + Z.of_nat n)%Z -> 0 <= f i) -> 0 <= zsum lo n f.
Proof.
  induction n; intros H; cbn [zsum]; [lra|].
  assert (0 <= zsum lo n f) by (apply IHn; intros; apply H; lia).
  assert (0 <= f (lo + Z.of_nat n)%Z) by (apply H; lia). lra.
Qed.
Lemma zsum_shift lo n k f : zsum (lo + k) n f = zsum lo n (fun i => f (i + k)%Z).
Proof.
  induction n; cbn [zsum]; [reflexivity|]. rewrite IHn. do 2 f_equal. lia.
Qed.
Lemma zsum_first lo n f : zsum lo (S n) f == f lo + zsum (lo + 1) n f.
Proof.
  induction n.
  - cbn [zsum]. replace (lo + Z.of_nat 0)%Z with lo by lia. ring.
  - cbn [zsum] in IHn |- *. rewrite IHn.
    replace (lo + 1 + Z.of_nat n)%Z with (lo + Z.of_nat (S n))%Z by lia. ring.
Qed.

Lemma zrange_length lo n : length (zrange lo n) = n.
Proof. unfold zrange. rewrite map_length, seq_length. reflexivity. Qed.
Lemma zrange_in lo n i : In i (zrange lo n) <-> (lo <= i < lo + Z.of_nat n)%Z.
Proof.
  unfold zrange. rewrite in_map_iff. split.
  - intros (k & <- & Hk). apply in_seq in Hk. lia.
  - intros H. exists (Z.to_nat (i - lo)). split; [lia|]. apply in_seq. lia.
Qed.
Lemma zrange_S lo n : zrange lo (S n) = zrange lo n ++ [(lo + Z.of_nat n)%Z].
Proof. unfold zrange. rewrite seq_S, map_app. reflexivity. Qed.
Lemma zrange_nth_error {A} (f : Z -> A) lo n i : (lo <= i < lo + Z.of_nat n)%Z ->
  nth_error (map f (zrange lo n)) (Z.to_nat (i - lo)) = Some (f i).
Proof.
  intros H. rewrite nth_error_map. unfold zrange. rewrite nth_error_map.
  rewrite (nth_error_nth' (seq 0 n) 0%nat) by (rewrite seq_length; lia).
  rewrite seq_nth by lia. simpl. do 2 f_equal. lia.
Qed.

Lemma in_slice_true lo hi i : (lo <= i < hi)%Z -> in_slice lo hi i = true.
Proof. unfold in_slice. lia. Qed.
Lemma in_slice_false lo hi i : ~ (lo <= i < hi)%Z -> in_slice lo hi i = false.
Proof. unfold in_slice. lia. Qed.

(** ** The limiter table treats equal arguments equally *)
Definition uniform (f : list Q -> list Q -> list Q) : Prop :=
  forall r c k l, length r = length c ->
  nth_error r k = nth_error r l -> nth_error c k = nth_error c l ->
  nth_error (f r c) k = nth_error (f r c) l.
Definition full (f : list Q -> list Q -> list Q) : Prop :=
  forall r c, length r = length c -> length (f r c) = length r.
Lemma map2_uniform g : uniform (map2 g).
Proof. intros r c k l _ E1 E2. rewrite !nth_error_map2, E1, E2. reflexivity. Qed.
Lemma broadcast_uniform (h : list Q -> list Q -> Q) : uniform (fun r c => broadcast r (h r c)).
Proof. intros r c k l _ E1 _. unfold broadcast. rewrite !nth_error_map, E1. reflexivity. Qed.
Lemma map2_full g : full (map2 g).
Proof. intros r c H. apply map2_length. exact H. Qed.
Lemma broadcast_full (h : list Q -> list Q -> Q) : full (fun r c => broadcast r (h r c)).
Proof. intros r c _. unfold broadcast. apply map_length. Qed.
Lemma table_uniform pow n f : limiter_functions pow n = Some f -> uniform f /\ full f.
Proof.
  unfold limiter_functions. intros H.
  repeat match type of H with
  | Some _ = Some _ => injection H as <-;
      split; [first [apply map2_uniform|apply broadcast_uniform]|first [apply map2_full|apply broadcast_full]]
  | None = Some _ => discriminate
  | (match ?x with _ => _ end) = _ => destruct x
  end.
Qed.

Section K.
Variable pow : Q -> Q -> Q.
Variables (neq nw : nat) (ng mx : Z).
Variable fwave : bool.
Variable order : Z.
Variable mthlim : Z -> Z.
Variable undef : Q -> Q -> Z -> Q.

(** Limiting factor of the Python kernel at an interface. *)
Definition py_fac (w : Z -> Z -> Z -> Q) (s : Z -> Z -> Q) (dtdx : Z -> Q) (mw j : Z) : Q :=
  if any_limiter nw mthlim then
    match limiter_functions pow (mthlim mw) with
    | None => 1
    | Some f =>
        let js := zrange 1 (Z.to_nat (mx + 2 * ng - 3)) in
        if qeqb (norm2 neq w mw j) 0 then 1
        else nth (Z.to_nat (j - 1)) (f (map (ratio neq w s mw) js) (map (local_cfl s dtdx mw) js)) 0
    end
  else 1.
Definition py_pre (s : Q) : Q := if fwave then npsign s else Qabs s.
Definition f_pre (s : Q) : Q := if fwave then dsign1 s else Qabs s.

(** Correction flux at the left edge of cell i, Python interface numbering. *)
Definition corr (pre : Q -> Q) (fac : Z -> Z -> Q) (dtdx : Z -> Q) (R : rpdata) (m i : Z) : Q :=
  zsum 0 nw (fun mw => (1 # 2) * pre (spd R mw (i - 1)%Z) *
    (1 - Qabs (spd R mw (i - 1)%Z) * ((1 # 2) * (dtdx (i - 1)%Z + dtdx i))) *
    (fac mw (i - 1)%Z * wave R m mw (i - 1)%Z)).

Definition update (second : bool) (pre : Q -> Q) (fac : Z -> Z -> Q) (dtdx : Z -> Q) (R : rpdata)
    (q : Z -> Z -> Q) (m i : Z) : Q :=
  q m i - dtdx i * (apdq R m (i - 1)%Z + amdq R m i) -
  (if second then dtdx i * (corr pre fac dtdx R m (i + 1)%Z - corr pre fac dtdx R m i) else 0).

Lemma py_godunov_interior dtdx R q m i : (ng <= i < ng + mx)%Z ->
  py_godunov ng mx dtdx R q m i == q m i - dtdx i * (apdq R m (i - 1)%Z + amdq R m i).
Proof. intros H. unfold py_godunov. rewrite !in_slice_true by lia. ring. Qed.

Lemma py_flux_corr dtdx R i : (2 <= ng)%Z -> (ng <= i < ng + mx + 1)%Z -> forall m,
  py_flux nw ng mx fwave dtdx (spd R) (if any_limiter nw mthlim then py_limit pow neq ng mx mthlim (wave R) (spd R) dtdx else wave R) m i
  == corr py_pre (py_fac (wave R) (spd R) dtdx) dtdx R m i.
Proof.
  intros Hg Hi m. unfold py_flux, corr. rewrite in_slice_true by lia. apply zsum_eq. intros mw Hmw.
  assert (L : (if any_limiter nw mthlim then py_limit pow neq ng mx mthlim (wave R) (spd R) dtdx else wave R) m mw (i - 1)%Z
     == py_fac (wave R) (spd R) dtdx mw (i - 1)%Z * wave R m mw (i - 1)%Z).
  { unfold py_fac. destruct (any_limiter nw mthlim); [|ring]. unfold py_limit.
    destruct (limiter_functions pow (mthlim mw)); [|ring].
    rewrite in_slice_true by lia. destruct (qeqb _ 0); [ring|reflexivity]. }
  unfold py_pre. destruct fwave; cbv zeta; rewrite L; ring.
Qed.

Lemma py_kernel_interior dtdx R q m i : (2 <= ng)%Z -> (ng <= i < ng + mx)%Z ->
  fst (py_kernel pow neq nw ng mx fwave order mthlim dtdx R q) m i ==
  update (Z.eqb order 2) py_pre (py_fac (wave R) (spd R) dtdx) dtdx R q m i.
Proof.
  intros Hg Hi. unfold py_kernel, update. cbv zeta. destruct (Z.eqb order 2); cbn [fst].
  - rewrite in_slice_true by lia. rewrite py_godunov_interior by exact Hi.
    rewrite !py_flux_corr by lia. reflexivity.
  - rewrite py_godunov_interior by exact Hi. ring.
Qed.

(** Fortran's limiter loop in closed form. *)
Definition f_phi (lim : Z) (a b : Q) : Q := match philim a b lim with Some p => p | None => undef a b lim end.
Definition f_factor (w : Z -> Z -> Q) (s : Z -> Q) (lim i : Z) : Q :=
  let n2 := zsum 0 neq (fun m => w m i * w m i) in
  if qeqb n2 0 then 1
  else f_phi lim n2 (if qltb 0 (s i) then zsum 0 neq (fun m => w m (i - 1)%Z * w m i)
                     else zsum 0 neq (fun m => w m i * w m (i + 1)%Z)).

Lemma f_limiter_loop lim s w n :
  let st := fold_left (f_limiter_body neq undef lim s) (zrange 0 (S n)) (w, 0) in
  snd st = zsum 0 neq (fun m => w m (Z.of_nat n) * w m (Z.of_nat n + 1)%Z) /\
  (forall m i, (1 <= i <= Z.of_nat n)%Z -> fst st m i == f_factor w s lim i * w m i) /\
  (forall m i, ~ (1 <= i <= Z.of_nat n)%Z -> fst st m i = w m i).
Proof.
  induction n; cbv zeta.
  - unfold zrange. cbn [seq map fold_left]. unfold f_limiter_body. cbn [Z.of_nat Z.add Z.eqb fst snd].
    split; [reflexivity|]. split; [intros; lia|reflexivity].
  - rewrite zrange_S, fold_left_app. cbn [fold_left].
    destruct (fold_left (f_limiter_body neq undef lim s) (zrange 0 (S n)) (w, 0)) as [w' dr] eqn:E.
    cbv zeta in IHn. cbn [fst snd] in IHn. destruct IHn as (A & B & C).
    set (k := (0 + Z.of_nat (S n))%Z). assert (Hk : k = (Z.of_nat n + 1)%Z) by (unfold k; lia).
    assert (Wk : forall m, w' m k = w m k) by (intros; apply C; lia).
    assert (Wk1 : forall m, w' m (k + 1)%Z = w m (k + 1)%Z) by (intros; apply C; lia).
    unfold f_limiter_body. cbn [fst snd].
    rewrite (zsum_ext 0 neq (fun m => w' m k * w' m k) (fun m => w m k * w m k)) by (intros; rewrite Wk; reflexivity).
    rewrite (zsum_ext 0 neq (fun m => w' m k * w' m (k + 1)%Z) (fun m => w m k * w m (k + 1)%Z))
      by (intros; rewrite Wk, Wk1; reflexivity).
    replace (Z.eqb k 0) with false by lia.
    replace (Z.of_nat (S n)) with k by (unfold k; lia).
    destruct (qeqb (zsum 0 neq (fun m => w m k * w m k)) 0) eqn:E0; cbn [fst snd].
    + split; [reflexivity|]. split.
      * intros m i Hi. destruct (Z.eq_dec i k) as [->|Hne]; [|apply B; lia].
        rewrite Wk. unfold f_factor. rewrite E0. ring.
      * intros m i Hi. apply C. lia.
    + split; [reflexivity|]. split.
      * intros m i Hi. destruct (Z.eqb_spec i k) as [->|Hne]; [|apply B; lia].
        rewrite Wk. unfold f_factor. rewrite E0. unfold f_phi.
        rewrite A. replace (Z.of_nat n) with (k - 1)%Z by lia. replace (k - 1 + 1)%Z with k by lia. reflexivity.
      * intros m i Hi. replace (Z.eqb i k) with false by lia. apply C. lia.
Qed.

Definition f_fac (w : Z -> Z -> Z -> Q) (s : Z -> Z -> Q) (mw i : Z) : Q :=
  if any_limiter nw mthlim then
    if Z.eqb (mthlim mw) 0 then 1 else f_factor (fun m i => w m mw i) (s mw) (mthlim mw) i
  else 1.

Lemma f_limiter_at w s m mw i : (0 <= mx)%Z -> (1 <= i <= mx + 1)%Z ->
  (if any_limiter nw mthlim then f_limiter neq mx mthlim undef w s else w) m mw i == f_fac w s mw i * w m mw i.
Proof.
  intros Hm Hi. unfold f_fac, f_limiter. destruct (any_limiter nw mthlim); [|ring].
  destruct (Z.eqb (mthlim mw) 0); [ring|].
  replace (Z.to_nat (mx + 2)) with (S (Z.to_nat (mx + 1))) by lia.
  destruct (f_limiter_loop (mthlim mw) (s mw) (fun m i => w m mw i) (Z.to_nat (mx + 1))) as (_ & B & _).
  apply B. lia.
Qed.

(** The Fortran update in Fortran indices: like [update] with the interface index shifted by one. *)
Definition f_shift (R : rpdata) : rpdata :=
  mkRP (fun m mw j => wave R m mw (j + 1)%Z) (fun mw j => spd R mw (j + 1)%Z)
       (fun m j => amdq R m (j + 1)%Z) (fun m j => apdq R m (j + 1)%Z).

Lemma f_kernel_interior dtdx R q m i : (1 <= i <= mx)%Z ->
  fst (f_kernel neq nw mx fwave order mthlim undef dtdx R q) m i ==
  update (negb (Z.eqb order 1)) f_pre (fun mw j => f_fac (wave R) (spd R) mw (j + 1)%Z) dtdx (f_shift R) q m i.
Proof.
  intros Hi. unfold f_kernel, update. cbv zeta.
  assert (G : f_godunov mx dtdx R q m i == q m i - dtdx i * (apdq (f_shift R) m (i - 1)%Z + amdq (f_shift R) m i)).
  { unfold f_godunov. rewrite !in_slice_true by lia. cbn [f_shift apdq amdq]. replace (i - 1 + 1)%Z with i by lia. ring. }
  destruct (Z.eqb order 1); cbn [fst negb].
  - rewrite G. ring.
  - rewrite in_slice_true by lia. rewrite G.
    assert (F : forall e, (1 <= e <= mx + 1)%Z ->
       f_flux nw mx fwave dtdx (spd R) (if any_limiter nw mthlim then f_limiter neq mx mthlim undef (wave R) (spd R) else wave R) m e ==
       corr f_pre (fun mw j => f_fac (wave R) (spd R) mw (j + 1)%Z) dtdx (f_shift R) m e).
    { intros e He. unfold f_flux, corr. rewrite in_slice_true by lia. apply zsum_eq. intros mw _.
      cbn [f_shift wave spd]. replace (e - 1 + 1)%Z with e by lia.
      assert (L := f_limiter_at (wave R) (spd R) m mw e ltac:(lia) He).
      unfold f_pre. destruct fwave; cbv zeta; rewrite L; ring. }
    rewrite !F by lia. reflexivity.
Qed.
End K.
