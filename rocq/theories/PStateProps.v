(** C164 (the attributes of a parallel state) and C165 (totals of output functionals). *)
From Coq Require Import Permutation.
From Verif Require Import Base PStateModel PStateSpec PStateProofs.

(** ** C164: a program that uses its state properly sees the same in a serial run and on a process of a parallel run: the same arrays,
    numbers and exceptions in the same places. *)
Theorem C164_same_state_partial cells blank neqn naux l :
  (forall n, length (blank n) = n) -> (1 <= neqn)%nat -> proper cells (new_usage neqn naux) l = true ->
  snd (p_run cells (p_new cells neqn naux) l) = snd (s_run cells blank (s_new cells blank neqn naux) l).
Proof. intros B N P. apply (sim_run_states cells blank B l (new_usage neqn naux)); [apply new_rel; assumption|exact P]. Qed.
Print Assumptions C164_same_state_partial.
(** two equations on three cells: values assigned, read, copied; ghost cells, an auxiliary array, derived quantities and a functional *)
Definition q23 : nd := mkNd [2; 3]%nat [1; 2; 3; 4; 5; 6].
Definition a13 : nd := mkNd [1; 3]%nat [7; -(8); 9].
Definition session : list op :=
  [Assign FQ q23; Poke FQ [1; 0]%nat 5; Poke FQ [2; 0]%nat 5; Num NEqn; Read FAux; Assign FAux a13; Num NAux; SetGhost 2; Interior FQ 2; Interior FAux 2;
   SetNum NP 1; Assign FP a13; SetNum NP 3; Num NP; SetNum NF 1; Fill FF a13; SumF 0; DeepCopy; Read FQ; Read FAux; SetNum NF 2].
Example C164_case :
  proper [3%nat] (new_usage 2 0) session = true /\
  snd (s_run [3%nat] (repeat 0) (s_new [3%nat] (repeat 0) 2 0) session) =
    [ODone; ODone; ORaised IndexErr; ONum 2; ONone; ODone; ONum 1; ODone; OArr (mkNd [2; 3]%nat [1; 5; 3; 4; 5; 6]); OArr a13;
     ODone; ODone; ORaised PlainErr; ONum 1; ODone; ODone; OSum (7 + (8 + (9 + 0))); ODone; OArr (mkNd [2; 3]%nat [1; 5; 3; 4; 5; 6]); OArr a13; ODone].
Proof. split; reflexivity. Qed.

(** F and (before mp is set) p cannot be assigned in a parallel program, whatever the array; mp and mF cannot be read before they are set. *)
Theorem C164_no_assignment cells (s : pstate) a : shape a <> [] ->
  p_step cells s (Assign FF a) = (s, ORaised AttributeErr) /\
  (p_p s = None -> p_step cells s (Assign FP a) = (s, ORaised AttributeErr) /\ p_step cells s (Num NP) = (s, ORaised PlainErr) /\
     p_step cells s (Read FP) = (s, OZero)).
Proof.
  intro H. split; [reflexivity|]. intro E. cbn [p_step p_assign p_num p_read]. unfold p_read. cbn [p_get]. rewrite E. destruct (shape a); [congruence|].
  repeat split.
Qed.
Print Assumptions C164_no_assignment.
(** An auxiliary array that is assigned for the first time after the ghost cells have been set up cannot be given ghost cells. *)
Lemma size_grow cells w : cells <> [] -> (1 <= w)%nat -> (forall n, In n cells -> (1 <= n)%nat) ->
  (size cells < size (map (fun n => n + 2 * w) cells))%nat.
Proof.
  induction cells as [|n cells IH]; [congruence|]. intros _ W N. cbn [map size fold_right]. fold (size cells) (size (map (fun n => (n + 2 * w)%nat) cells)).
  assert (Hn : (1 <= n)%nat) by (apply N; left; reflexivity).
  destruct cells as [|m r]; [cbn [map size fold_right]; lia|].
  assert (K := IH ltac:(discriminate) W (fun x I => N x (or_intror I))). nia.
Qed.
Theorem C164_late_aux cells blank neqn w a : cells <> [] -> (forall n, In n cells -> (1 <= n)%nat) -> (1 <= w)%nat ->
  (exists c, (1 <= c)%nat /\ fits cells c a = true) ->
  let l := [SetGhost w; Assign FAux a; Interior FAux w] in
  snd (s_run cells blank (s_new cells blank neqn 0) l) = [ODone; ODone; OArr a] /\
  snd (p_run cells (p_new cells neqn 0) l) = [ODone; ODone; ORaised ValueErr].
Proof.
  intros NE N W (c & C & F) l. destruct (fits_eq cells c a F) as (v & -> & L). unfold l. split.
  - cbn [s_run s_step s_set s_get s_aux shape snd]. rewrite (proj2 (same_shape_eq cells cells) eq_refl), (proj2 (Nat.leb_le 1 w) W). reflexivity.
  - destruct c as [|c]; [lia|]. set (p1 := mkP (rewidth w (create cells neqn 0)) None None None). set (p2 := p_set FAux (mkV (S c) 0 v) p1).
    assert (A1 : p_step cells (p_new cells neqn 0) (SetGhost w) = (p1, ODone)) by reflexivity.
    assert (A2 : p_step cells p1 (Assign FAux (mkNd (S c :: cells) v)) = (p2, ODone)).
    { cbn [p_step p_assign p1 p_aux shape data]. unfold set_array, create. cbn [v_vals v_dof v_width]. rewrite repeat_length, L, Nat.eqb_refl. reflexivity. }
    assert (A3 : p_step cells p2 (Interior FAux w) = (p2, ORaised ValueErr)).
    { cbn [p_step p2 p_set p_aux]. unfold p_interior. cbn [v_width]. pose proof (size_grow cells w NE W N) as G.
      assert (E : map (fun n => (n + 2 * 0)%nat) cells = cells) by (rewrite <- (map_id cells) at 2; apply map_ext; intro; cbn; lia).
      rewrite E, (proj2 (Nat.eqb_neq _ _)); [reflexivity|lia]. }
    cbn [p_run]. rewrite A1, A2, A3. reflexivity.
Qed.
Print Assumptions C164_late_aux.
Example C164_late_case : (forall n, In n [3%nat] -> (1 <= n)%nat) /\ fits [3%nat] 1 a13 = true.
Proof. split; [intros n [<-|[]]; lia|reflexivity]. Qed.
(** The full claim fails: a program without errors in a serial run, which assigns its functional densities, stops in a parallel run. *)
Theorem C164_same_state_refuted : exists cells neqn l, forall blank,
  ~ In (ORaised AttributeErr) (snd (s_run cells blank (s_new cells blank neqn 0) l)) /\
  In (ORaised AttributeErr) (snd (p_run cells (p_new cells neqn 0) l)).
Proof.
  exists [3%nat], 1%nat, [Assign FQ a13; SetNum NF 1; Assign FF a13; SumF 0]. intro b. split.
  - intros [H|[H|[H|[H|[]]]]]; discriminate H.
  - right. right. left. reflexivity.
Qed.
Print Assumptions C164_same_state_refuted.
(** And an array of another shape with as many values is taken without an error, in another order of its entries: entry (1,0) that is read
    is not entry (1,0) that was assigned. *)
Theorem C164_shape_refuted : exists a, shape a = [3; 2]%nat /\
  snd (p_run [3%nat] (p_new [3%nat] 2 0) [Assign FQ a; Read FQ]) = [ODone; OArr (mkNd [2; 3]%nat (data a))].
Proof. exists (mkNd [3; 2]%nat [1; 2; 3; 4; 5; 6]). split; reflexivity. Qed.
Print Assumptions C164_shape_refuted.

(** ** Entries: writing one entry writes that entry and no other, in the array and in the whole state. *)
Definition entry (a : nd) (ix : list nat) : option Q := option_map (fun k => nth k (data a) 0) (offset (shape a) ix).
Lemma offset_lt sh : forall ix k, offset sh ix = Some k -> (k < size sh)%nat.
Proof.
  induction sh as [|n sh IH]; intros [|i ix] k H; cbn [offset] in H; try discriminate H.
  - injection H as <-. cbn. lia.
  - destruct (Nat.ltb_spec i n) as [L|_]; [|discriminate H]. destruct (offset sh ix) as [k'|] eqn:E; [|discriminate H]. injection H as <-.
    specialize (IH ix k' E). cbn [size fold_right]. fold (size sh). nia.
Qed.
Lemma offset_inj sh : forall ix jx k, offset sh ix = Some k -> offset sh jx = Some k -> ix = jx.
Proof.
  induction sh as [|n sh IH]; intros [|i ix] [|j jx] k H G; cbn [offset] in H, G; try discriminate; [reflexivity|].
  destruct (Nat.ltb_spec i n) as [L|_]; [|discriminate H]. destruct (Nat.ltb_spec j n) as [M|_]; [|discriminate G].
  destruct (offset sh ix) as [a|] eqn:E; [|discriminate H]. destruct (offset sh jx) as [b|] eqn:D; [|discriminate G].
  cbn [option_map] in H, G. assert (K : (n * a + i = n * b + j)%nat) by (injection H as H; injection G as G; lia).
  destruct (Nat.div_mod_unique n a b i j L M K) as [-> ->]. f_equal. apply (IH ix jx b); assumption.
Qed.
Lemma nth_put x l : forall k, (k < length l)%nat -> nth k (put k x l) 0 = x.
Proof. induction l as [|y l IH]; intros [|k] H; cbn in *; try lia; [reflexivity|]. apply IH. lia. Qed.
Lemma nth_put_other x l : forall k j, j <> k -> nth j (put k x l) 0 = nth j l 0.
Proof. induction l as [|y l IH]; intros [|k] [|j] H; cbn; try reflexivity; try lia. apply IH. lia. Qed.

Theorem C164_entries cells blank (s : sstate) v a ix x :
  s_get v s = Some a -> length (data a) = size (shape a) ->
  match s_step cells blank s (Poke v ix x) with
  | (s', ODone) => (exists a', s_get v s' = Some a' /\ shape a' = shape a /\ length (data a') = length (data a) /\ entry a' ix = Some x /\
                      forall jx, jx <> ix -> entry a' jx = entry a jx) /\
                   forall u, u <> v -> s_get u s' = s_get u s
  | (s', o) => o = ORaised IndexErr /\ s' = s /\ entry a ix = None
  end.
Proof.
  intros H HL. cbn [s_step]. unfold s_write. rewrite H. unfold poke. destruct (offset (shape a) ix) as [k|] eqn:E.
  - split.
    + exists (with_data a (put k x (data a))). split; [destruct v; reflexivity|]. split; [reflexivity|]. split; [cbn; apply put_length|].
      pose proof (offset_lt _ _ _ E) as L. split.
      * unfold entry. cbn [with_data shape data]. rewrite E. cbn [option_map]. rewrite nth_put by lia. reflexivity.
      * intros jx N. unfold entry. cbn [with_data shape data]. destruct (offset (shape a) jx) as [j|] eqn:D; [|reflexivity]. cbn [option_map].
        rewrite nth_put_other; [reflexivity|]. intros ->. apply N. apply (offset_inj _ _ _ _ D E).
    + intros u N. destruct u, v; try reflexivity; contradiction N; reflexivity.
  - split; [reflexivity|]. split; [|unfold entry; rewrite E; reflexivity]. destruct s, v; cbn in *; rewrite <- H; reflexivity.
Qed.
Example C164_entries_case : let a := mkNd [2; 3]%nat [1; 2; 3; 4; 5; 6] in let s := mkS (Some a) None None None in
  s_get FQ s = Some a /\ length (data a) = size (shape a) /\
  s_step [3%nat] (repeat 0) s (Poke FQ [1; 2]%nat 9) = (mkS (Some (mkNd [2; 3]%nat [1; 2; 3; 4; 5; 9])) None None None, ODone) /\
  entry a [0; 1]%nat = Some 3 /\ snd (s_step [3%nat] (repeat 0) s (Poke FQ [2; 0]%nat 9)) = ORaised IndexErr.
Proof. cbv zeta. repeat split; reflexivity. Qed.
Print Assumptions C164_entries.

(** ** C165: what write_F writes is the sum of the absolute values over the whole domain, in a serial program and in a parallel one with
    any number of processes. *)
Definition holds_F (c : nat) (l : list Q) (s : pstate) : Prop := exists w, p_F s = Some (mkV c w l).
Theorem C165_absolute cells blank (s : sstate) c whole (states : list (list nat * pstate)) parts :
  s_F s = Some (mkNd (c :: cells) whole) -> states <> [] ->
  Forall2 (fun l cs => holds_F c l (snd cs)) parts states -> distributed c whole parts ->
  exists serial parallel, write_F cells blank s = Some serial /\ write_F_parallel states = Some parallel /\
    serial = map (fun i => fold_right Qplus 0 (map Qabs (component c i whole))) (seq 0 c) /\ Forall2 Qeq parallel serial.
Proof.
  intros HF NE HP HD.
  exists (map (fun i => sum_abs c i whole) (seq 0 c)), (map (fun i => qsum (map (fun l => sum_abs c i l) parts)) (seq 0 c)).
  split.
  { unfold write_F. cbn [s_num]. rewrite HF. unfold first_size. cbn [shape]. apply all_sums_map. intros i Hi. apply in_seq in Hi.
    cbn [s_step snd]. rewrite HF. cbn [shape data]. rewrite (proj2 (Nat.ltb_lt i c) ltac:(lia)). reflexivity. }
  split.
  { unfold write_F_parallel. destruct states as [|[c0 s0] states']; [congruence|].
    assert (N0 : p_num NF s0 = ONum c).
    { inversion HP as [|l x ls xs (w & E) HP' E1 E2]; subst. cbn [snd] in E. cbn [p_num]. rewrite E. reflexivity. }
    rewrite N0. apply all_sums_map. intros i Hi. apply in_seq in Hi. unfold reduce.
    assert (A : all_sums (map (fun cs : list nat * pstate => snd (p_step (fst cs) (snd cs) (SumF i))) ((c0, s0) :: states')) = Some (map (fun l => sum_abs c i l) parts)).
    { clear N0 NE HD. revert HP. generalize ((c0, s0) :: states'). intros sts HP. induction HP as [|l cs ls css (w & E) _ IH]; [reflexivity|].
      cbn [map all_sums p_step snd]. rewrite E. cbn [v_dof v_vals]. rewrite (proj2 (Nat.ltb_lt i c) ltac:(lia)). cbn [p_step snd] in IH. rewrite IH. reflexivity. }
    rewrite A. reflexivity. }
  split; [reflexivity|].
  assert (K : forall i, In i (seq 0 c) -> (i < c)%nat) by (intros i Hi; apply in_seq in Hi; lia).
  induction (seq 0 c) as [|i l IH]; constructor; [|apply IH; intros j Hj; apply K; right; exact Hj].
  assert (Hi : (i < c)%nat) by (apply K; left; reflexivity). unfold sum_abs.
  rewrite (qsum_perm _ _ (Permutation_map Qabs (HD i Hi))). rewrite concat_map, qsum_concat. rewrite !map_map. reflexivity.
Qed.
Print Assumptions C165_absolute.
(** With densities that are nowhere negative these are the totals. *)
Theorem C165_totals_partial cells blank (s : sstate) c whole (states : list (list nat * pstate)) parts :
  s_F s = Some (mkNd (c :: cells) whole) -> states <> [] ->
  Forall2 (fun l cs => holds_F c l (snd cs)) parts states -> distributed c whole parts -> (forall x, In x whole -> 0 <= x) ->
  exists serial parallel, write_F cells blank s = Some serial /\ write_F_parallel states = Some parallel /\
    Forall2 Qeq serial (map (fun i => total c i whole) (seq 0 c)) /\ Forall2 Qeq parallel (map (fun i => total c i whole) (seq 0 c)).
Proof.
  intros HF NE HP HD HN. destruct (C165_absolute cells blank s c whole states parts HF NE HP HD) as (a & b & A & B & EA & EB).
  exists a, b. split; [exact A|]. split; [exact B|].
  assert (T : Forall2 Qeq a (map (fun i => total c i whole) (seq 0 c))).
  { rewrite EA. assert (K : forall i, In i (seq 0 c) -> (i < c)%nat) by (intros i Hi; apply in_seq in Hi; lia). clear -K HN.
    induction (seq 0 c) as [|i l IH]; cbn [map]; constructor; [|apply IH; intros j Hj; apply K; right; exact Hj].
    apply qsum_abs. apply Forall_component; [|apply K; left; reflexivity]. intros k Hk. apply HN, nth_In, Hk. }
  split; [exact T|]. clear -T EB. revert T. generalize (map (fun i => total c i whole) (seq 0 c)). intro r. revert r.
  induction EB as [|x y b a E _ IH]; intros r T; inversion T; subst; constructor; [rewrite E; assumption|apply IH; assumption].
Qed.
Print Assumptions C165_totals_partial.
(** two functionals on three cells, held by two processes *)
Definition whole6 : list Q := [1; 10; 2; 20; 3; 30].
Definition piece (l : list Q) : list nat * pstate := ([Nat.div (length l) 2], mkP (mkV 1 0 []) None None (Some (mkV 2 0 l))).
Example C165_case :
  distributed 2 whole6 [[3; 30]; [1; 10; 2; 20]] /\ (forall x, In x whole6 -> 0 <= x) /\
  Forall2 (fun l cs => holds_F 2 l (snd cs)) [[3; 30]; [1; 10; 2; 20]] [piece [3; 30]; piece [1; 10; 2; 20]] /\
  map (fun i => total 2 i whole6) (seq 0 2) = [1 + (2 + (3 + 0)); 10 + (20 + (30 + 0))].
Proof.
  split.
  { intros i Hi. destruct i as [|[|i]]; [| |lia].
    - change (Permutation [1; 2; 3] ([3] ++ [1; 2])). apply (Permutation_app_comm [1; 2] [3]).
    - change (Permutation [10; 20; 30] ([30] ++ [10; 20])). apply (Permutation_app_comm [10; 20] [30]). }
  split; [intros x [<-|[<-|[<-|[<-|[<-|[<-|[]]]]]]]; discriminate|].
  split; [repeat constructor; exists 0%nat; reflexivity|reflexivity].
Qed.
(** The full claim fails for densities that change their sign: a functional with total zero is written as 2. *)
Theorem C165_signed_refuted : exists s whole, s_F s = Some (mkNd [1; 2]%nat whole) /\ total 1 0 whole == 0 /\
  forall blank, exists x, write_F [2%nat] blank s = Some [x] /\ x == 2.
Proof.
  exists (mkS None None None (Some (mkNd [1; 2]%nat [1; -(1)]))), [1; -(1)]. split; [reflexivity|]. split; [reflexivity|].
  intro b. eexists. split; [reflexivity|]. reflexivity.
Qed.
Print Assumptions C165_signed_refuted.
