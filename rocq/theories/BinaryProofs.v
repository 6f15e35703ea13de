(** Positions in the binary stream: proofs. *)
From Coq Require Import Ascii String.
From Verif Require Import Base FormatModel FormatSpec AsciiModel AsciiSpec FormatProofs FormatProofs2 AsciiProofs AsciiProofs2 BinaryModel BinarySpec.
Open Scope Q_scope.

Lemma prod_app a b : prod (a ++ b) = (prod a * prod b)%Z.
Proof. unfold prod. induction a as [|n a IH]; cbn [app fold_right]; [lia|]. rewrite IH. ring. Qed.
Lemma prod_rev a : prod (rev a) = prod a.
Proof. induction a as [|n a IH]; [reflexivity|]. cbn [rev]. rewrite prod_app, IH. unfold prod. cbn [fold_right]. ring. Qed.
Lemma prod_nonneg a : Forall (fun n => 0 <= n)%Z a -> (0 <= prod a)%Z.
Proof. intros H. induction H; [cbn; lia|]. unfold prod in *. cbn [fold_right]. nia. Qed.

Lemma concat_length_same (g : Z -> list Q) L l : (forall j, In j l -> length (g j) = L) ->
  length (concat (map g l)) = (length l * L)%nat.
Proof.
  induction l as [|a l IH]; intros H; [reflexivity|]. cbn [map concat length]. rewrite app_length, (H a) by (left; reflexivity).
  rewrite IH by (intros; apply H; right; assumption). lia.
Qed.
Lemma concat_nth_same (g : Z -> list Q) L l k r d : (forall j, In j l -> length (g j) = L) -> (k < length l)%nat -> (r < L)%nat ->
  nth (k * L + r) (concat (map g l)) d = nth r (g (nth k l 0%Z)) d.
Proof.
  revert k; induction l as [|a l IH]; intros k H Hk Hr; [cbn [length] in Hk; lia|].
  cbn [map concat]. destruct k as [|k].
  - cbn [Nat.mul Nat.add nth]. apply app_nth1. rewrite (H a) by (left; reflexivity). exact Hr.
  - rewrite app_nth2; rewrite (H a) by (left; reflexivity); [|cbn [Nat.mul]; lia].
    replace (S k * L + r - L)%nat with (k * L + r)%nat by (cbn [Nat.mul]; lia). cbn [nth].
    apply IH; [intros; apply H; right; assumption|cbn [length] in Hk; lia|exact Hr].
Qed.

Lemma dump_length f rns : Forall (fun n => 0 <= n)%Z rns -> forall ix, length (dump f rns ix) = Z.to_nat (prod rns).
Proof.
  intros H. induction H as [|n rns Hn Hr IH]; intros ix; [reflexivity|]. cbn [dump].
  rewrite (concat_length_same _ (Z.to_nat (prod rns))) by (intros; apply IH). rewrite range_length.
  unfold prod at 2. cbn [fold_right]. fold (prod rns). pose proof (prod_nonneg rns Hr). rewrite Z2Nat.inj_mul by lia. reflexivity.
Qed.

Lemma offset_snoc s ix n j : length s = length ix -> offset (s ++ [n]) (ix ++ [j]) = (offset s ix + prod s * j)%Z.
Proof.
  revert ix; induction s as [|a s IH]; intros [|i ix] L; try discriminate L; cbn [app offset].
  - unfold prod. cbn [fold_right]. lia.
  - injection L as L. rewrite IH by exact L. unfold prod at 2. cbn [fold_right]. fold (prod s). ring.
Qed.
Lemma cell_of_length ns ix : cell_of ns ix -> length ix = length ns.
Proof. intros H. unfold cell_of in H. induction H; cbn [length]; lia. Qed.
Lemma offset_range s ix : cell_of s ix -> (0 <= offset s ix < prod s)%Z.
Proof.
  intros H. unfold cell_of in H. induction H as [|i n ix s Hi _ IH]; [cbn; lia|].
  cbn [offset]. unfold prod in *. cbn [fold_right]. nia.
Qed.

Lemma cell_of_nonneg ns ix : cell_of ns ix -> Forall (fun n => 0 <= n)%Z ns.
Proof. intros H. unfold cell_of in H. induction H; constructor; [lia|assumption]. Qed.

Lemma dump_nth f rns : forall jx ix d, cell_of rns jx ->
  nth (Z.to_nat (offset (rev rns) (rev jx))) (dump f rns ix) d = f (rev jx ++ ix).
Proof.
  induction rns as [|n rns IH]; intros jx ix d H.
  - inversion H; subst. reflexivity.
  - inversion H as [|j n' jx' rns' Hj Hjx]; subst. cbn [rev dump].
    rewrite offset_snoc by (rewrite !rev_length; symmetry; apply cell_of_length, Hjx).
    pose proof (offset_range _ _ (cell_of_rev _ _ Hjx)) as B. rewrite prod_rev in *.
    pose proof (cell_of_nonneg _ _ Hjx) as NN.
    replace (Z.to_nat (offset (rev rns) (rev jx') + prod rns * j))
      with (Z.to_nat j * Z.to_nat (prod rns) + Z.to_nat (offset (rev rns) (rev jx')))%nat.
    + rewrite (concat_nth_same _ (Z.to_nat (prod rns))).
      * rewrite range_nth by exact Hj. rewrite IH by exact Hjx. rewrite <- app_assoc. reflexivity.
      * intros k _. apply dump_length, NN.
      * rewrite range_length. lia.
      * lia.
    + rewrite <- Z2Nat.inj_mul by lia. rewrite <- Z2Nat.inj_add by nia. f_equal. ring.
Qed.

Lemma slice_middle pre d post : slice (pre ++ d ++ post) (Z.of_nat (length pre)) (Z.of_nat (length pre) + Z.of_nat (length d)) = d.
Proof.
  unfold slice. rewrite Nat2Z.id. replace (Z.to_nat (Z.of_nat (length pre) + Z.of_nat (length d) - Z.of_nat (length pre))) with (length d) by lia.
  rewrite skipn_app, skipn_all, Nat.sub_diag. cbn [skipn app]. rewrite firstn_app, firstn_all, Nat.sub_diag. cbn [firstn]. apply app_nil_r.
Qed.

Definition ghosted (num_var g : Z) (ns : list Z) : list Z := num_var :: map (fun n => n + 2 * g)%Z ns.

Lemma ghosted_nonneg num_var g ns : (0 <= num_var)%Z -> (0 <= g)%Z -> Forall (fun n => 0 < n)%Z ns ->
  Forall (fun n => 0 <= n)%Z (ghosted num_var g ns).
Proof.
  intros H1 H2 H3. constructor; [exact H1|]. apply Forall_forall. intros x Hx. apply in_map_iff in Hx.
  destruct Hx as (n & <- & Hn). rewrite Forall_forall in H3. specialize (H3 n Hn). lia.
Qed.
Lemma Forall_rev' (P : Z -> Prop) l : Forall P l -> Forall P (rev l).
Proof. intros H. apply Forall_forall. intros x Hx. rewrite Forall_forall in H. apply H. apply in_rev, Hx. Qed.

Lemma dump_patch_length num_var g ns v : (0 <= num_var)%Z -> (0 <= g)%Z -> Forall (fun n => 0 < n)%Z ns ->
  Z.of_nat (length (dump_patch num_var g ns v)) = prod (ghosted num_var g ns).
Proof.
  intros H1 H2 H3. pose proof (ghosted_nonneg num_var g ns H1 H2 H3) as NN. unfold dump_patch.
  fold (ghosted num_var g ns). rewrite dump_length by (apply Forall_rev', NN). rewrite prod_rev.
  rewrite Z2Nat.id; [reflexivity|]. apply prod_nonneg, NN.
Qed.

(** the array found in the stream *)
Lemma next_array_ok num_var g ns v pre post : (0 <= num_var)%Z -> (0 <= g)%Z -> Forall (fun n => 0 < n)%Z ns ->
  exists a, next_array (pre ++ dump_patch num_var g ns v ++ post) (Z.of_nat (length pre)) num_var g ns
            = Ok (a, Z.of_nat (length (pre ++ dump_patch num_var g ns v))) /\
    a_shape a = ghosted num_var g ns /\
    (forall m ix, (0 <= m < num_var)%Z -> cell_of (map (fun n => n + 2 * g)%Z ns) ix ->
       a_val a (m :: ix) = v m (map (fun i => i - g)%Z ix)).
Proof.
  intros H1 H2 H3. unfold next_array. replace (g <? 0)%Z with false by (symmetry; apply Z.ltb_ge; exact H2).
  fold (ghosted num_var g ns). pose proof (dump_patch_length num_var g ns v H1 H2 H3) as L.
  cbv zeta. rewrite <- L. rewrite slice_middle. unfold reshape_F. rewrite L, Z.eqb_refl. cbn [bind].
  eexists. split; [|split].
  - rewrite app_length, Nat2Z.inj_add, L. reflexivity.
  - reflexivity.
  - intros m ix Hm Hix. cbn [a_val].
    assert (C : cell_of (ghosted num_var g ns) (m :: ix)) by (constructor; assumption).
    pose proof (dump_nth (fun ix => match ix with m :: c => v m (map (fun i => i - g)%Z c) | [] => 0 end)
                  (rev (ghosted num_var g ns)) (rev (m :: ix)) [] 0 (cell_of_rev _ _ C)) as K.
    rewrite !rev_involutive, app_nil_r in K. exact K.
Qed.

Lemma cell_of_ghosted ns ix g : (0 <= g)%Z -> cell_of ns ix -> cell_of (map (fun n => n + 2 * g)%Z ns) (map (Z.add g) ix).
Proof.
  intros Hg H. unfold cell_of in *. induction H as [|i n ix ns Hi _ IH]; [constructor|].
  cbn [map]. constructor; [lia|exact IH].
Qed.
Lemma sub_add g ix : map (fun i => i - g)%Z (map (Z.add g) ix) = ix.
Proof. rewrite map_map. induction ix as [|i ix IH]; [reflexivity|]. cbn [map]. f_equal; [lia|exact IH]. Qed.

(** stripping the ghost cells *)
Lemma cut_holds num_var g ns v a : (0 < g)%Z -> Forall (fun n => 0 < n)%Z ns ->
  a_shape a = ghosted num_var g ns ->
  (forall m ix, (0 <= m < num_var)%Z -> cell_of (map (fun n => n + 2 * g)%Z ns) ix ->
       a_val a (m :: ix) = v m (map (fun i => i - g)%Z ix)) ->
  holds num_var ns v (cut g a).
Proof.
  intros Hg Hn Hs Hv. unfold cut. rewrite Hs. unfold ghosted. split.
  - cbn [a_shape]. f_equal. rewrite map_map. clear -Hg Hn. induction Hn as [|n ns Hn' _ IH]; [reflexivity|].
    cbn [map]. f_equal; [|exact IH]. unfold cut_len. replace (g =? 0)%Z with false by (symmetry; apply Z.eqb_neq; lia). lia.
  - intros m ix Hm Hix. cbn [a_val]. rewrite Hv; [|exact Hm|apply cell_of_ghosted; [lia|exact Hix]].
    rewrite sub_add. reflexivity.
Qed.
Lemma nocut_holds num_var ns v a :
  a_shape a = ghosted num_var 0 ns ->
  (forall m ix, (0 <= m < num_var)%Z -> cell_of (map (fun n => n + 2 * 0)%Z ns) ix ->
       a_val a (m :: ix) = v m (map (fun i => i - 0)%Z ix)) ->
  holds num_var ns v a.
Proof.
  assert (E : forall l, map (fun n => n + 2 * 0)%Z l = l).
  { intros l. induction l as [|n l IH]; [reflexivity|]. cbn [map]. f_equal; [lia|exact IH]. }
  assert (E2 : forall l, map (fun n => n - 0)%Z l = l).
  { intros l. induction l as [|n l IH]; [reflexivity|]. cbn [map]. f_equal; [lia|exact IH]. }
  intros Hs Hv. split.
  - rewrite Hs. unfold ghosted. rewrite E. reflexivity.
  - intros m ix Hm Hix. rewrite Hv; [rewrite E2; reflexivity|exact Hm|rewrite E; exact Hix].
Qed.
