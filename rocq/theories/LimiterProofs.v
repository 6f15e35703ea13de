(** Proofs about the limiters. *)
From Verif Require Import Base LimiterModel LimiterSpec.

(** Decide every [pymin]/[pymax] by comparison. *)
Ltac minmax := unfold pymax3, pymin3, pymin, pymax;
  repeat match goal with
  | |- context [qltb ?a ?b] =>
      lazymatch a with context [qltb _ _] => fail | _ =>
      lazymatch b with context [qltb _ _] => fail | _ =>
      let H := fresh "H" in qcase_lt a b H end end
  end.
Ltac qabs := repeat match goal with
  | |- context [Qabs ?x] => let H := fresh "Ha" in
      destruct (Qlt_le_dec x 0) as [H|H];
      [rewrite !(Qabs_neg x (Qlt_le_weak _ _ H))|rewrite !(Qabs_pos x H)]
  end.

Lemma Qinv_unit r : 0 < r -> 0 < 1 / r /\ r * (1 / r) == 1.
Proof. intros H. split; [apply Qdiv_pos; lra|field; lra]. Qed.

Lemma minmod_sweby c : in_sweby (fun r => minmod r c).
Proof. unfold in_sweby, minmod. repeat split; intros; minmax; lra. Qed.
Lemma superbee_py_sweby c : in_sweby (fun r => superbee_py r c).
Proof. unfold in_sweby, superbee_py. repeat split; intros; minmax; lra. Qed.
Lemma mc_sweby c : in_sweby (fun r => mc r c).
Proof. unfold in_sweby, mc. repeat split; intros; minmax; lra. Qed.
Lemma vanleer_neg r c : r <= 0 -> vanleer r c == 0.
Proof.
  intros H. unfold vanleer. rewrite Qabs_neg by exact H. setoid_replace (r + - r) with 0 by ring.
  unfold Qdiv. ring.
Qed.
Lemma vanleer_pos r c : 0 <= r -> vanleer r c == 2 * r / (1 + r).
Proof. intros H. unfold vanleer. rewrite Qabs_pos by exact H. setoid_replace (r + r) with (2 * r) by ring. reflexivity. Qed.
Lemma vanleer_sweby c : in_sweby (fun r => vanleer r c).
Proof.
  unfold in_sweby. split; [|split; [|split]].
  - intros r. destruct (Qlt_le_dec r 0) as [H|H].
    + rewrite vanleer_neg by lra. lra.
    + rewrite vanleer_pos by lra. split; [apply Qle_shift_div_l; lra|apply Qle_shift_div_r; lra].
  - intros r H. rewrite vanleer_pos by lra. apply Qle_shift_div_r; [lra|]. nra.
  - intros r H. apply vanleer_neg. exact H.
  - rewrite vanleer_pos by lra. field.
Qed.

(** How a positive number and its reciprocal compare with a threshold. *)
Lemma recip_cmp r t k h : 0 < r -> 0 < t -> 0 < k -> r * t == 1 -> k * h == 1 ->
  (r < k /\ h < t) \/ (r == k /\ t == h) \/ (k < r /\ t < h).
Proof.
  intros. destruct (Q_dec r k) as [[L|L]|E]; [left|right; right|right; left]; split; try assumption.
  - nra.
  - nra.
  - rewrite E in *. assert (k * (t - h) == 0) by lra. apply Qmult_integral in H4. lra.
Qed.
Ltac recip r t :=
  let f k h := (destruct (recip_cmp r t k h) as [[? ?]|[[? ?]|[? ?]]]; [assumption|assumption|lra|assumption|ring| | |]; try (exfalso; lra)) in
  f 1 1; f 2 (1 # 2); f (1 # 2) 2; f 3 (1 # 3); f (1 # 3) 3;
  minmax; lra.
Lemma minmod_symmetric c : symmetric (fun r => minmod r c).
Proof.
  intros r Hr. destruct (Qinv_unit r Hr) as [H1 H2]. unfold minmod. set (t := 1 / r) in *. clearbody t.
  recip r t.
Qed.
Lemma mc_symmetric c : symmetric (fun r => mc r c).
Proof.
  intros r Hr. destruct (Qinv_unit r Hr) as [H1 H2]. unfold mc. set (t := 1 / r) in *. clearbody t.
  assert (E1 : (1 + r) / 2 == (1 # 2) + (1 # 2) * r) by field.
  assert (E2 : (1 + t) / 2 == (1 # 2) + (1 # 2) * t) by field.
  set (a := (1 + r) / 2) in *. set (b := (1 + t) / 2) in *. clearbody a b.
  assert (E3 : r * b == (1 # 2) + (1 # 2) * r) by (rewrite E2; lra).
  recip r t.
Qed.
Lemma vanleer_symmetric c : symmetric (fun r => vanleer r c).
Proof.
  intros r Hr. destruct (Qinv_unit r Hr) as [H1 _]. rewrite !vanleer_pos by lra. field. split; lra.
Qed.
Lemma superbee_symmetric : symmetric (fun r => pymax3 0 (pymin 1 (2 * r)) (pymin 2 r)).
Proof.
  intros r Hr. destruct (Qinv_unit r Hr) as [H1 H2]. set (t := 1 / r) in *. clearbody t.
  recip r t.
Qed.
Lemma superbee_sweby : in_sweby (fun r => pymax3 0 (pymin 1 (2 * r)) (pymin 2 r)).
Proof. unfold in_sweby. repeat split; intros; minmax; lra. Qed.

(** Courant-number dependent limiters *)
Lemma cfmods nu : (1 # 1000) <= nu <= (999 # 1000) ->
  pymax (1 # 1000) nu == nu /\ pymin (999 # 1000) nu == nu.
Proof. intros H. minmax; split; lra. Qed.

Lemma Qdiv_bounds a b : 0 <= a -> 0 < b -> 0 <= a / b /\ a / b * b == a.
Proof. intros. split; [apply Qle_shift_div_l; lra|field; lra]. Qed.

Lemma arora_roe_region nu : 0 < nu -> nu < 1 -> in_cfl_region nu (fun r => arora_roe r nu).
Proof.
  intros H0 H1. unfold in_cfl_region, arora_roe.
  destruct (Qdiv_bounds ((99 # 100) * 2) nu ltac:(lra) H0) as [A1 A2].
  destruct (Qdiv_bounds ((99 # 100) * 2) (1 - nu) ltac:(lra) ltac:(lra)) as [B1 B2].
  set (s1 := (99 # 100) * 2 / nu) in *. set (pm := (99 # 100) * 2 / (1 - nu)) in *. clearbody s1 pm.
  repeat split; intros.
  - minmax; lra.
  - assert (s1 * r <= 0) by nra. minmax; lra.
  - minmax; nra.
  - minmax; nra.
Qed.
Lemma cfl_superbee_region nu : 0 <= nu -> nu <= 1 -> in_cfl_region nu (fun r => cfl_superbee r nu).
Proof.
  intros H0 H1. unfold in_cfl_region, cfl_superbee.
  set (c1 := pymax (1 # 1000) nu). set (c2 := pymin (999 # 1000) nu).
  assert (C1 : (1 # 1000) <= c1 /\ nu <= c1) by (unfold c1; minmax; lra).
  assert (C2 : c2 <= (999 # 1000) /\ c2 <= nu) by (unfold c2; minmax; lra).
  clearbody c1 c2.
  destruct (Qdiv_bounds 2 (1 - c2) ltac:(lra) ltac:(lra)) as [B1 B2]. set (pm := 2 / (1 - c2)) in *. clearbody pm.
  destruct (Qdiv_bounds 2 c1 ltac:(lra) ltac:(lra)) as [A1 A2].
  assert (P : pm * (1 - nu) <= 2) by nra.
  assert (S : (2 / c1) * nu <= 2) by nra.
  assert (K : forall r, exists x, 2 * r / c1 = x /\ x == r * (2 / c1))
    by (intros r; exists (2 * r / c1); split; [reflexivity|field; lra]).
  set (s1 := 2 / c1) in *. clearbody s1.
  repeat split; intros; destruct (K r) as (x & Ex & L); rewrite Ex; clear Ex K.
  - minmax; lra.
  - assert (x <= 0) by nra. minmax; lra.
  - minmax; nra.
  - assert (x * nu <= 2 * r) by nra. assert (0 <= x) by nra. minmax; nra.
Qed.
Lemma cfl_superbee_theta_region nu th : 0 <= th <= 1 -> 0 <= nu -> nu <= 1 ->
  in_cfl_region nu (fun r => cfl_superbee_theta th r nu).
Proof.
  intros Ht H0 H1. unfold in_cfl_region, cfl_superbee_theta.
  set (c1 := pymax (1 # 1000) nu). set (c2 := pymin (999 # 1000) nu).
  assert (C1 : (1 # 1000) <= c1 /\ nu <= c1) by (unfold c1; minmax; lra).
  assert (C2 : c2 <= (999 # 1000) /\ c2 <= nu) by (unfold c2; minmax; lra).
  clearbody c1 c2.
  destruct (Qdiv_bounds (th * 2) (1 - c2) ltac:(lra) ltac:(lra)) as [B1 B2]. set (pm := th * 2 / (1 - c2)) in *. clearbody pm.
  destruct (Qdiv_bounds (th * 2) c1 ltac:(lra) ltac:(lra)) as [A1 A2]. set (s1 := th * 2 / c1) in *. clearbody s1.
  assert (P : pm * (1 - nu) <= 2) by nra.
  assert (S : s1 * nu <= 2) by nra.
  repeat split; intros.
  - minmax; lra.
  - assert (s1 * r <= 0) by nra. minmax; lra.
  - minmax; nra.
  - assert (0 <= s1 * r) by nra. assert (s1 * r * nu <= 2 * r) by nra. minmax; nra.
Qed.

(** Locality. *)
Lemma nth_error_map2 {A B C} (f : A -> B -> C) : forall l m k,
  nth_error (map2 f l m) k =
  match nth_error l k, nth_error m k with Some a, Some b => Some (f a b) | _, _ => None end.
Proof.
  induction l as [|a l IH]; intros m k; [destruct k; reflexivity|].
  destruct m as [|b m]; destruct k; simpl; try reflexivity.
  - destruct (nth_error l k); reflexivity.
  - apply IH.
Qed.
Lemma map2_cell_by_cell f : cell_by_cell (map2 f).
Proof. intros r c r' c' k _ _ E1 E2. rewrite !nth_error_map2, E1, E2. reflexivity. Qed.
Lemma map2_length {A B C} (f : A -> B -> C) : forall l m, length l = length m -> length (map2 f l m) = length l.
Proof. induction l; intros [|b m] H; simpl in *; try discriminate; auto. Qed.

Lemma amax_ge l x : In x l -> x <= amax l.
Proof.
  destruct l as [|y l]; [intros []|]. intros [<-|H]; unfold amax.
  - revert y. induction l as [|z l IH]; intros y; simpl; [lra|].
    eapply Qle_trans; [|apply IH]. minmax; lra.
  - revert y H. induction l as [|z l IH]; intros y H; [destruct H|]. simpl.
    destruct H as [<-|H]; [|apply IH; exact H].
    assert (G : forall l y, y <= fold_left pymax l y).
    { clear. induction l as [|w l IHl]; intros y; simpl; [lra|]. eapply Qle_trans; [|apply IHl]. minmax; lra. }
    eapply Qle_trans; [|apply G]. minmax; lra.
Qed.
Lemma amax_le l b : l <> [] -> (forall x, In x l -> x <= b) -> amax l <= b.
Proof.
  destruct l as [|y l]; [congruence|]. intros _ H. unfold amax. pose proof (H y (or_introl eq_refl)) as Hy.
  assert (Hl : forall x, In x l -> x <= b) by (intros; apply H; right; assumption). clear H.
  revert y Hy. induction l as [|z l IH]; intros y Hy; simpl; [exact Hy|].
  apply IH; [intros; apply Hl; right; assumption|]. pose proof (Hl z (or_introl eq_refl)). minmax; lra.
Qed.
Lemma amin_le l x : In x l -> amin l <= x.
Proof.
  assert (G : forall l y, fold_left pymin l y <= y).
  { clear. induction l as [|w l IHl]; intros y; simpl; [lra|]. eapply Qle_trans; [apply IHl|]. minmax; lra. }
  destruct l as [|y l]; [intros []|]. intros [<-|H]; unfold amin; [apply G|].
  revert y H. induction l as [|z l IH]; intros y H; [destruct H|]. simpl.
  destruct H as [<-|H]; [|apply IH; exact H].
  eapply Qle_trans; [apply G|]. minmax; lra.
Qed.

Lemma broadcast_in {A} (r : list A) v x : In x (broadcast r v) -> x = v.
Proof. unfold broadcast. rewrite in_map_iff. intros (? & <- & _). reflexivity. Qed.
Lemma broadcast_nonempty {A} (r : list A) v : r <> [] -> In v (broadcast r v).
Proof. destruct r; [congruence|]. simpl. auto. Qed.

(** Limiter 17 is identically zero. *)
Lemma beta_limiter_zero r c k : length r = length c -> (k < length r)%nat ->
  exists v, nth_error (beta_limiter 0 (2 # 3) r c) k = Some v /\ v == 0.
Proof.
  intros Hl Hk. unfold beta_limiter.
  assert (Hr : r <> []) by (destruct r; [simpl in Hk; lia|congruence]).
  assert (Hc : c <> []) by (destruct c; [simpl in Hl; lia|congruence]).
  set (b1 := amin (map2 Qmult _ r ++ _)). set (ultra := amax (broadcast r 0 ++ broadcast r b1)).
  set (m := amin (broadcast r ultra ++ _)). eexists. split.
  - unfold broadcast at 1. rewrite nth_error_map. destruct (nth_error r k) eqn:E; [reflexivity|].
    apply nth_error_None in E. lia.
  - assert (Hb1 : b1 <= 0).
    { destruct c as [|c0 c]; [congruence|].
      assert (G : b1 <= 0 * 2 / (1 - pymin (999 # 1000) c0)).
      { apply amin_le. apply in_or_app. right. left. reflexivity. }
      setoid_replace (0 * 2 / (1 - pymin (999 # 1000) c0)) with 0 in G; [exact G|]. unfold Qdiv. ring. }
    assert (Hu : ultra <= 0).
    { apply amax_le.
      - intro E. pose proof (broadcast_nonempty r 0 Hr) as G. apply app_eq_nil in E. destruct E as [E _].
        rewrite E in G. destruct G.
      - intros x Hx. apply in_app_or in Hx. destruct Hx as [Hx|Hx]; apply broadcast_in in Hx; subst; [lra|exact Hb1]. }
    assert (Hm : m <= 0).
    { eapply Qle_trans; [|exact Hu]. apply amin_le. apply in_or_app. left. apply broadcast_nonempty. exact Hr. }
    apply Qle_antisym.
    + apply amax_le.
      * intro E. pose proof (broadcast_nonempty r 0 Hr) as G. apply app_eq_nil in E. destruct E as [E _].
        rewrite E in G. destruct G.
      * intros x Hx. apply in_app_or in Hx. destruct Hx as [Hx|Hx]; apply broadcast_in in Hx; subst; [lra|exact Hm].
    + apply amax_ge. apply in_or_app. left. apply broadcast_nonempty. exact Hr.
Qed.

(** Values at r = 1. *)
Lemma unit_arora nu : 0 < nu -> nu < 1 -> arora_roe 1 nu == 1.
Proof.
  intros H0 H1. unfold arora_roe.
  assert (A : 1 <= (99 # 100) * 2 / nu) by (apply Qle_shift_div_l; lra).
  assert (B : 1 <= (99 # 100) * 2 / (1 - nu)) by (apply Qle_shift_div_l; lra).
  set (s1 := (99 # 100) * 2 / nu) in *. set (pm := (99 # 100) * 2 / (1 - nu)) in *. clearbody s1 pm.
  set (s2 := (1 + nu) / 3). clearbody s2. minmax; lra.
Qed.
Lemma unit_cfl_superbee nu : 0 < nu -> nu < 1 -> cfl_superbee 1 nu == 1.
Proof.
  intros H0 H1. unfold cfl_superbee.
  set (c1 := pymax (1 # 1000) nu). set (c2 := pymin (999 # 1000) nu).
  assert (C1 : 0 < c1 <= 1) by (unfold c1; minmax; lra).
  assert (C2 : 0 <= c2 <= (999 # 1000)) by (unfold c2; minmax; lra).
  assert (A : 1 <= 2 * 1 / c1) by (apply Qle_shift_div_l; lra).
  assert (B : 1 <= 2 / (1 - c2)) by (apply Qle_shift_div_l; lra).
  set (s1 := 2 * 1 / c1) in *. set (pm := 2 / (1 - c2)) in *. clearbody s1 pm. minmax; lra.
Qed.
Lemma unit_cfl_superbee_theta nu : 0 < nu -> nu < 1 -> cfl_superbee_theta (95 # 100) 1 nu == 1.
Proof.
  intros H0 H1. unfold cfl_superbee_theta.
  set (c1 := pymax (1 # 1000) nu). set (c2 := pymin (999 # 1000) nu).
  assert (C1 : 0 < c1 <= 1) by (unfold c1; minmax; lra).
  assert (C2 : 0 <= c2 <= (999 # 1000)) by (unfold c2; minmax; lra).
  assert (A : 1 <= (95 # 100) * 2 / c1) by (apply Qle_shift_div_l; lra).
  assert (B : 1 <= (95 # 100) * 2 / (1 - c2)) by (apply Qle_shift_div_l; lra).
  set (s1 := (95 # 100) * 2 / c1) in *. set (pm := (95 # 100) * 2 / (1 - c2)) in *. clearbody s1 pm. minmax; lra.
Qed.
