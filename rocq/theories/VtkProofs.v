(** Proofs about VTK output. *)
From Coq Require Import Ascii String Sorted Lqa.
From Verif Require Import Base FormatModel FormatProofs VtkModel VtkSpec.
Open Scope Q_scope.

(** ** Marks *)
Lemma index_on_grid clo d x n : 0 < d -> x == clo + inject_Z n * d -> (x - clo) / d == inject_Z n.
Proof. intros Hd E. rewrite E. field. lra. Qed.
Lemma center_after clo d n i : 0 < d ->
  (clo + inject_Z n * d < clo + (inject_Z i + (1 # 2)) * d <-> (n <= i)%Z).
Proof.
  intro Hd. split.
  - intro H. assert (K : inject_Z n < inject_Z i + (1#2)) by (apply (Qmult_lt_r _ _ d Hd); lra).
    destruct (Z.le_gt_cases n i) as [L|L]; [exact L|exfalso].
    assert (L1 : (i + 1 <= n)%Z) by lia. rewrite Zle_Qle, inject_Z_plus in L1. change (inject_Z 1) with 1 in L1. lra.
  - intro H. rewrite Zle_Qle in H. assert (K : inject_Z n < inject_Z i + (1#2)) by lra.
    apply (Qmult_lt_r _ _ d Hd) in K. lra.
Qed.
Lemma center_before clo d n i : 0 < d ->
  (clo + (inject_Z i + (1 # 2)) * d < clo + inject_Z n * d <-> (i < n)%Z).
Proof.
  intro Hd. split.
  - intro H. assert (K : inject_Z i + (1#2) < inject_Z n) by (apply (Qmult_lt_r _ _ d Hd); lra).
    destruct (Z.lt_ge_cases i n) as [L|L]; [exact L|exfalso]. rewrite Zle_Qle in L. lra.
  - intro H. assert (L1 : (i + 1 <= n)%Z) by lia. rewrite Zle_Qle, inject_Z_plus in L1.
    assert (K : inject_Z i + (1#2) < inject_Z n) by (change (inject_Z 1) with 1 in L1; lra). apply (Qmult_lt_r _ _ d Hd) in K. lra.
Qed.

Section One.
  Variables (clo chi d flo fhi : Q) (N : Z) (n m : Z).
  Hypothesis Hd : 0 < d.
  Hypothesis Hhi : chi == clo + inject_Z N * d.
  Hypothesis Hn : flo == clo + inject_Z n * d.
  Hypothesis Hm : fhi == clo + inject_Z m * d.

  Lemma first_cell_eq : first_cell clo d flo = Z.max n 0.
  Proof. unfold first_cell. rewrite (round_even_int _ n); [reflexivity|]. exact (index_on_grid _ _ _ _ Hd Hn). Qed.
  Lemma end_cell_eq : end_cell clo d flo fhi N = Z.min (m - n + Z.max n 0) N.
  Proof.
    unfold end_cell. rewrite first_cell_eq, (round_even_int _ (m - n)); [reflexivity|].
    rewrite Hn, Hm. unfold Zminus. rewrite inject_Z_plus, inject_Z_opp. field. lra.
  Qed.
  Lemma center_in i : (flo < clo + (inject_Z i + (1 # 2)) * d /\ clo + (inject_Z i + (1 # 2)) * d < fhi) <-> (n <= i < m)%Z.
  Proof. rewrite Hn, Hm, (center_after clo d n i Hd), (center_before clo d m i Hd). reflexivity. Qed.
  Lemma covered_in_range i : (0 <= i < N)%Z -> (n <= i < m)%Z ->
    (first_cell clo d flo <= i < end_cell clo d flo fhi N)%Z.
  Proof. rewrite first_cell_eq, end_cell_eq. lia. Qed.
  Lemma range_covered i : (0 <= i < N)%Z -> (clo <= flo \/ chi <= fhi) ->
    (first_cell clo d flo <= i < end_cell clo d flo fhi N)%Z -> (n <= i < m)%Z.
  Proof.
    intros Hi B. assert (K : (0 <= n \/ N <= m)%Z).
    { destruct B as [B|B]; [left|right].
      - rewrite Hn in B. destruct (Z.le_gt_cases 0 n) as [L|L]; [exact L|exfalso].
        assert (L1 : (n + 1 <= 0)%Z) by lia. rewrite Zle_Qle, inject_Z_plus in L1. change (inject_Z 1) with 1 in L1. change (inject_Z 0) with 0 in L1.
        assert (L2 : inject_Z n < 0) by lra. apply (Qmult_lt_r _ _ d Hd) in L2. lra.
      - rewrite Hm, Hhi in B. rewrite Zle_Qle. destruct (Qlt_le_dec (inject_Z m) (inject_Z N)) as [L|L]; [|exact L].
        apply (Qmult_lt_r _ _ d Hd) in L. lra. }
    rewrite first_cell_eq, end_cell_eq. lia.
  Qed.
End One.

Lemma patch_dx p : valid_patch p -> 0 < p_dx p /\ p_xhi p == p_xlo p + inject_Z (p_nx p) * p_dx p.
Proof.
  intros (Hx & _ & Lx & _). assert (K : 0 < inject_Z (p_nx p)) by (rewrite (Zlt_Qlt 0) in Hx; exact Hx).
  unfold p_dx. split; [apply Qlt_shift_div_l; [exact K|lra]|]. field. lra.
Qed.
Lemma patch_dy p : valid_patch p -> 0 < p_dy p /\ p_yhi p == p_ylo p + inject_Z (p_ny p) * p_dy p.
Proof.
  intros (_ & Hy & _ & Ly). assert (K : 0 < inject_Z (p_ny p)) by (rewrite (Zlt_Qlt 0) in Hy; exact Hy).
  unfold p_dy. split; [apply Qlt_shift_div_l; [exact K|lra]|]. field. lra.
Qed.
Lemma marks_iff c f i j : marks c f i j = true <->
  (p_level f = p_level c + 1
   /\ (first_cell (p_xlo c) (p_dx c) (p_xlo f) <= i < end_cell (p_xlo c) (p_dx c) (p_xlo f) (p_xhi f) (p_nx c))
   /\ (first_cell (p_ylo c) (p_dy c) (p_ylo f) <= j < end_cell (p_ylo c) (p_dy c) (p_ylo f) (p_yhi f) (p_ny c)))%Z.
Proof.
  unfold marks. rewrite !Bool.andb_true_iff, Z.eqb_eq, !Z.leb_le, !Z.ltb_lt. lia.
Qed.
Lemma covers_marks c f i j : valid_patch c -> aligned f c -> in_patch c i j -> covers f c i j -> marks c f i j = true.
Proof.
  intros V ((xn & Xn) & (xm & Xm) & (yn & Yn) & (ym & Ym)) (Ii & Ij) (L & Cx & Cy).
  destruct (patch_dx c V) as (Dx & _). destruct (patch_dy c V) as (Dy & _). apply marks_iff. split; [exact L|].
  unfold x_center in Cx. unfold y_center in Cy.
  apply (center_in _ _ _ _ _ _ Dx Xn Xm) in Cx. apply (center_in _ _ _ _ _ _ Dy Yn Ym) in Cy. split.
  - exact (covered_in_range _ _ _ _ _ _ _ Dx Xn Xm i Ii Cx).
  - exact (covered_in_range _ _ _ _ _ _ _ Dy Yn Ym j Ij Cy).
Qed.
Lemma marks_covers c f i j : valid_patch c -> aligned f c -> not_before f c -> in_patch c i j ->
  marks c f i j = true -> covers f c i j.
Proof.
  intros V ((xn & Xn) & (xm & Xm) & (yn & Yn) & (ym & Ym)) (Bx & By) (Ii & Ij) M.
  destruct (patch_dx c V) as (Dx & Hx). destruct (patch_dy c V) as (Dy & Hy).
  apply marks_iff in M. destruct M as (L & Mx & My). split; [exact L|]. split.
  - apply (center_in _ _ _ _ _ _ Dx Xn Xm). exact (range_covered _ _ _ _ _ _ _ _ Dx Hx Xn Xm i Ii Bx Mx).
  - apply (center_in _ _ _ _ _ _ Dy Yn Ym). exact (range_covered _ _ _ _ _ _ _ _ Dy Hy Yn Ym j Ij By My).
Qed.
Lemma status_8 l s i j : status l s i j = 8 <-> exists f, In f l /\ marks (s_patch s) (s_patch f) i j = true.
Proof.
  unfold status. rewrite <- existsb_exists. destruct (existsb _ l); split; intro H; try reflexivity; discriminate H.
Qed.
Lemma status_0 l s i j : status l s i j = 8 \/ status l s i j = 0.
Proof. unfold status. destruct (existsb _ l); tauto. Qed.

(** ** Sorting *)
Section Sorting.
  Context {A : Type} (key : A -> Z).
  Implicit Types (l r : list A) (x : A).
  Lemma insert_front x l : Forall (fun y => (key x <= key y)%Z) l -> insert key x l = x :: l.
  Proof.
    destruct l as [|y r]; intro H; cbn [insert]; [reflexivity|]. apply Forall_inv in H.
    destruct (Z.leb_spec (key x) (key y)); [reflexivity|lia].
  Qed.
  Lemma insert_past x r : forall l, Forall (fun y => (key y < key x)%Z) l -> insert key x (l ++ r) = l ++ insert key x r.
  Proof.
    induction l as [|y l IH]; intro H; [reflexivity|]. apply Forall_cons_iff in H. destruct H as (H1 & H2).
    cbn [app insert]. destruct (Z.leb_spec (key x) (key y)); [lia|]. rewrite (IH H2). reflexivity.
  Qed.
  Lemma sorted_already : forall l, StronglySorted (fun a b => (key a < key b)%Z) l -> sorted key l = l.
  Proof.
    induction l as [|x l IH]; intro S; [reflexivity|]. apply StronglySorted_inv in S. destruct S as (S & F).
    change (sorted key (x :: l)) with (insert key x (sorted key l)). rewrite (IH S). apply insert_front.
    eapply Forall_impl; [|exact F]. cbn beta. intros y Hy. lia.
  Qed.
  Definition having (k : Z) (l : list A) : list A := filter (fun x => (key x =? k)%Z) l.
  Lemma having_key k l : Forall (fun x => key x = k) (having k l).
  Proof. apply Forall_forall. intros x Hx. apply filter_In in Hx. destruct Hx as (_ & K). apply Z.eqb_eq in K. exact K. Qed.
  Lemma having_cons k x l : having k (x :: l) = if (key x =? k)%Z then x :: having k l else having k l.
  Proof. reflexivity. Qed.
  Lemma insert_having x l : forall ks, StronglySorted Z.lt ks -> In (key x) ks ->
    insert key x (flat_map (fun k => having k l) ks) = flat_map (fun k => having k (x :: l)) ks.
  Proof.
    induction ks as [|k ks IH]; intros S I; [destruct I|]. apply StronglySorted_inv in S. destruct S as (S & F).
    cbn [flat_map]. rewrite having_cons. destruct (Z.eqb_spec (key x) k) as [E|E].
    - rewrite insert_front.
      + change ((x :: having k l) ++ flat_map (fun k0 => having k0 (x :: l)) ks)
          with (x :: (having k l ++ flat_map (fun k0 => having k0 (x :: l)) ks)). do 2 f_equal.
        rewrite !flat_map_concat_map. f_equal. apply map_ext_in. intros k' Hk'. rewrite having_cons.
        rewrite Forall_forall in F. specialize (F k' Hk'). destruct (Z.eqb_spec (key x) k'); [lia|reflexivity].
      + apply Forall_app. split.
        * eapply Forall_impl; [|apply having_key]. cbn beta. intros y Hy. lia.
        * apply Forall_forall. intros y Hy. apply in_flat_map in Hy. destruct Hy as (k' & Hk' & Hy).
          rewrite Forall_forall in F. specialize (F k' Hk'). pose proof (having_key k' l) as K. rewrite Forall_forall in K.
          specialize (K y Hy). lia.
    - destruct I as [I|I]; [congruence|]. rewrite insert_past.
      + rewrite (IH S I). reflexivity.
      + eapply Forall_impl; [|apply having_key]. cbn beta. intros y Hy. rewrite Forall_forall in F. specialize (F _ I). lia.
  Qed.
  Lemma sorted_having ks : StronglySorted Z.lt ks -> forall l, (forall x, In x l -> In (key x) ks) ->
    sorted key l = flat_map (fun k => having k l) ks.
  Proof.
    intro S. induction l as [|x l IH]; intro H.
    - cbn. clear S H. induction ks as [|k ks IH]; [reflexivity|]. exact IH.
    - change (sorted key (x :: l)) with (insert key x (sorted key l)). rewrite IH; [|intros y Hy; apply H; right; exact Hy].
      apply insert_having; [exact S|]. apply H. left. reflexivity.
  Qed.
End Sorting.

(** ** The levels *)
Lemma firsts_snoc s : forall l seen, firsts seen (l ++ [s]) =
  firsts seen l ++ (if existsb (Z.eqb (level_of s)) seen || existsb (Z.eqb (level_of s)) (firsts seen l) then [] else [level_of s])%bool.
Proof.
  induction l as [|a l IH]; intro seen; cbn [app firsts].
  - cbn [existsb]. rewrite Bool.orb_false_r. destruct (existsb _ seen); reflexivity.
  - destruct (existsb (Z.eqb (level_of a)) seen) eqn:E; [apply IH|].
    rewrite IH. cbn [app existsb]. f_equal. f_equal.
    rewrite <- Bool.orb_assoc, Bool.orb_comm, <- !Bool.orb_assoc.
    destruct (level_of s =? level_of a)%Z, (existsb (Z.eqb (level_of s)) seen), (existsb (Z.eqb (level_of s)) (firsts (level_of a :: seen) l)); reflexivity.
Qed.
Lemma firsts_in l : forall k, In k (firsts [] l) <-> exists s, In s l /\ level_of s = k.
Proof.
  induction l as [|s l IH] using rev_ind; intro k.
  - cbn. split; [intros []|]. intros (s & [] & _).
  - rewrite firsts_snoc. cbn [existsb orb]. rewrite in_app_iff, IH.
    destruct (existsb (Z.eqb (level_of s)) (firsts [] l)) eqn:E.
    + apply existsb_exists in E. destruct E as (k' & E1 & E2). apply Z.eqb_eq in E2. split.
      * intros [(a & I & K)|[]]. exists a. rewrite in_app_iff. tauto.
      * intros (a & I & K). rewrite in_app_iff in I. left. destruct I as [I|[I|[]]]; [exists a; tauto|].
        subst a. apply IH. rewrite <- K, E2. exact E1.
    + split.
      * intros [(a & I & K)|[K|[]]]; [exists a|exists s]; rewrite in_app_iff; [tauto|]. split; [right; left; reflexivity|exact K].
      * intros (a & I & K). rewrite in_app_iff in I. destruct I as [I|[I|[]]]; [left; exists a; tauto|].
        subst a. right. left. exact K.
Qed.
Lemma firsts_nodup l : NoDup (firsts [] l).
Proof.
  induction l as [|s l IH] using rev_ind; [constructor|]. rewrite firsts_snoc. cbn [existsb orb].
  destruct (existsb (Z.eqb (level_of s)) (firsts [] l)) eqn:E; [rewrite app_nil_r; exact IH|].
  apply NoDup_Add with (a := level_of s) (l := firsts [] l); [|split; [exact IH|]].
  - rewrite <- (app_nil_r (firsts [] l)) at 1. apply Add_app.
  - intro I. assert (K : existsb (Z.eqb (level_of s)) (firsts [] l) = true); [|congruence].
    apply existsb_exists. exists (level_of s). split; [exact I|apply Z.eqb_refl].
Qed.

Lemma add_level_map (g : Z -> level) k0 sp : (forall k, v_level (g k) = (k - 1)%Z) -> forall ks, NoDup ks ->
  add_level (k0 - 1) sp (map g ks) =
    if existsb (Z.eqb k0) ks
    then map (fun k => if (k =? k0)%Z then mkLevel (k - 1) (S (v_count (g k))) (v_spacing (g k)) else g k) ks
    else map g ks ++ [mkLevel (k0 - 1) 1 sp].
Proof.
  intro G. induction ks as [|k ks IH]; intro N; [reflexivity|]. apply NoDup_cons_iff in N. destruct N as (N1 & N2).
  cbn [map add_level existsb]. rewrite G. destruct (Z.eqb_spec (k - 1) (k0 - 1)) as [E|E].
  - assert (k = k0) by lia. subst k0. rewrite !Z.eqb_refl. cbn [orb]. f_equal. apply map_ext_in. intros k' I.
    destruct (Z.eqb_spec k' k); [congruence|reflexivity].
  - rewrite (IH N2). destruct (Z.eqb_spec k0 k); [lia|]. destruct (Z.eqb_spec k k0); [lia|]. cbn [orb].
    destruct (existsb (Z.eqb k0) ks); reflexivity.
Qed.

Definition level_entry (l : list state) (k : Z) : level :=
  mkLevel (k - 1) (length (on_level k l)) (match on_level k l with [] => [] | s :: _ => spacing (s_patch s) end).
Lemma on_level_snoc k l s : on_level k (l ++ [s]) = on_level k l ++ (if (level_of s =? k)%Z then [s] else []).
Proof. unfold on_level. rewrite filter_app. reflexivity. Qed.
Lemma on_level_nil k l : ~ In k (firsts [] l) -> on_level k l = [].
Proof.
  intro N. unfold on_level. destruct (filter _ l) as [|a r] eqn:E; [reflexivity|exfalso]. apply N. apply firsts_in.
  assert (I : In a (filter (fun s => (level_of s =? k)%Z) l)) by (rewrite E; left; reflexivity).
  apply filter_In in I. exists a. split; [tauto|]. apply Z.eqb_eq. tauto.
Qed.
Lemma on_level_some k l : In k (firsts [] l) -> on_level k l <> [].
Proof.
  intros I E. apply firsts_in in I. destruct I as (s & I & K).
  assert (J : In s (on_level k l)) by (apply filter_In; split; [exact I|apply Z.eqb_eq; exact K]). rewrite E in J. exact J.
Qed.
Lemma level_count_eq l : level_count l = map (level_entry l) (firsts [] l).
Proof.
  induction l as [|s l IH] using rev_ind; [reflexivity|].
  unfold level_count. rewrite fold_left_app. fold (level_count l). cbn [fold_left]. rewrite IH.
  change (p_level (s_patch s)) with (level_of s).
  rewrite (add_level_map (level_entry l) (level_of s)); [|reflexivity|apply firsts_nodup].
  rewrite firsts_snoc. cbn [existsb orb]. destruct (existsb (Z.eqb (level_of s)) (firsts [] l)) eqn:E.
  - rewrite app_nil_r. apply map_ext_in. intros k I. unfold level_entry. cbn [v_count v_spacing].
    rewrite on_level_snoc. rewrite (Z.eqb_sym (level_of s) k). destruct (Z.eqb_spec k (level_of s)) as [K|K].
    + pose proof (on_level_some k l I) as Ne. rewrite app_length. cbn [length]. rewrite Nat.add_1_r.
      destruct (on_level k l); [congruence|reflexivity].
    + rewrite app_nil_r. reflexivity.
  - assert (N : ~ In (level_of s) (firsts [] l)).
    { intro I. assert (K : existsb (Z.eqb (level_of s)) (firsts [] l) = true); [|congruence].
      apply existsb_exists. exists (level_of s). split; [exact I|apply Z.eqb_refl]. }
    rewrite map_app. f_equal.
    + apply map_ext_in. intros k I. unfold level_entry. rewrite on_level_snoc.
      destruct (Z.eqb_spec (level_of s) k) as [K|K]; [congruence|]. rewrite app_nil_r. reflexivity.
    + cbn [map]. unfold level_entry. rewrite on_level_snoc, Z.eqb_refl, (on_level_nil _ _ N). reflexivity.
Qed.

(** ** The datasets *)
Lemma on_level_status k l : forall r, on_level k (map (fun s => mkState (s_patch s) (s_q s ++ [status l s])) r) =
  map (fun s => mkState (s_patch s) (s_q s ++ [status l s])) (on_level k r).
Proof.
  induction r as [|s r IH]; [reflexivity|]. cbn [map]. unfold on_level in *. cbn [filter].
  change (level_of (mkState (s_patch s) (s_q s ++ [status l s]))) with (level_of s).
  destruct (level_of s =? k)%Z; cbn [map]; rewrite IH; reflexivity.
Qed.
Lemma firsts_status l : forall r seen, firsts seen (map (fun s => mkState (s_patch s) (s_q s ++ [status l s])) r) = firsts seen r.
Proof.
  induction r as [|s r IH]; intro seen; [reflexivity|]. cbn [map firsts].
  change (level_of (mkState (s_patch s) (s_q s ++ [status l s]))) with (level_of s). rewrite !IH. reflexivity.
Qed.

Section Fill.
  Variable single : Q -> Q.
  Fixpoint numbered (k : Z) (sp : list Q) (index : nat) (ss : list state) : list (Z * nat * grid) :=
    match ss with
    | [] => []
    | s :: r => (k, index, grid_of single sp s) :: numbered k sp (S index) r
    end.
  Lemma fill_blocks_ok k sp : forall ss r index,
    fill_blocks single k sp (ss ++ r) (length ss) index = Ok (numbered k sp index ss).
  Proof.
    induction ss as [|s ss IH]; intros r index; [destruct r; reflexivity|].
    cbn [app length fill_blocks numbered]. rewrite IH. reflexivity.
  Qed.
  Lemma numbered_in k sp : forall ss index k' b g,
    In (k', b, g) (numbered k sp index ss) <->
    k' = k /\ exists c s, b = (index + c)%nat /\ nth_error ss c = Some s /\ g = grid_of single sp s.
  Proof.
    induction ss as [|s ss IH]; intros index k' b g; cbn [numbered In].
    - split; [intros []|]. intros (_ & c & s & _ & K & _). destruct c; discriminate K.
    - rewrite IH. split.
      + intros [K|(-> & c & s' & -> & K & ->)].
        * injection K as <- <- <-. split; [reflexivity|]. exists 0%nat, s. rewrite Nat.add_0_r. repeat split.
        * split; [reflexivity|]. exists (S c), s'. split; [lia|]. split; [exact K|reflexivity].
      + intros (-> & [|c] & s' & -> & K & ->).
        * left. cbn in K. injection K as ->. rewrite Nat.add_0_r. reflexivity.
        * right. split; [reflexivity|]. exists c, s'. split; [lia|]. split; [exact K|reflexivity].
  Qed.
  Lemma numbered_length k sp : forall ss index, length (numbered k sp index ss) = length ss.
  Proof. induction ss as [|s ss IH]; intro index; cbn; [reflexivity|]. rewrite IH. reflexivity. Qed.

  Definition sets_of (l : list state) (k : Z) : list (Z * nat * grid) :=
    numbered (k - 1) (v_spacing (level_entry l k)) 0 (on_level k l).
  Lemma fill_levels_ok l blocks : forall ks,
    (forall k, In k ks -> (1 <= k)%Z /\ nth_error blocks (Z.to_nat (k - 1)) = Some (length (on_level k l))) ->
    fill_levels single (map (level_entry l) ks) blocks (flat_map (fun k => on_level k l) ks) = Ok (flat_map (sets_of l) ks).
  Proof.
    induction ks as [|k ks IH]; intro H; [reflexivity|]. cbn [map fill_levels flat_map].
    destruct (H k (or_introl eq_refl)) as (H1 & H2). change (v_level (level_entry l k)) with (k - 1)%Z.
    destruct (Z.ltb_spec (k - 1) 0) as [L|L]; [lia|]. rewrite H2, fill_blocks_ok. cbn [bind].
    rewrite skipn_app, skipn_all, Nat.sub_diag. cbn [skipn app].
    rewrite IH; [reflexivity|]. intros k' I. apply H. right. exact I.
  Qed.

  Definition levels (n : nat) : list Z := map (fun k => Z.of_nat (S k)) (seq 0 n).
  Lemma levels_in n k : In k (levels n) <-> (1 <= k <= Z.of_nat n)%Z.
  Proof.
    unfold levels. rewrite in_map_iff. split.
    - intros (j & <- & I). apply in_seq in I. lia.
    - intro H. exists (Z.to_nat (k - 1)). rewrite in_seq. lia.
  Qed.
  Lemma levels_sorted n : StronglySorted Z.lt (levels n).
  Proof.
    unfold levels. generalize 0%nat. induction n as [|n IH]; intro a; [constructor|]. cbn [seq map]. constructor; [apply IH|].
    apply Forall_forall. intros k I. apply in_map_iff in I. destruct I as (j & <- & I). apply in_seq in I. lia.
  Qed.
  Lemma sorted_entries l : forall ks, StronglySorted Z.lt ks -> sorted v_level (map (level_entry l) ks) = map (level_entry l) ks.
  Proof.
    intros ks S. apply sorted_already. induction S as [|k ks S IH F]; [constructor|]. cbn [map]. constructor; [exact IH|].
    apply Forall_forall. intros e I. apply in_map_iff in I. destruct I as (k' & <- & I). rewrite Forall_forall in F.
    specialize (F k' I). cbn [v_level level_entry]. lia.
  Qed.
  Lemma blocks_nth l n k : (1 <= k <= Z.of_nat n)%Z ->
    nth_error (blocks_per_level (map (level_entry l) (levels n))) (Z.to_nat (k - 1)) = Some (length (on_level k l)).
  Proof.
    intro H. unfold blocks_per_level. rewrite (sorted_entries l _ (levels_sorted n)), map_map. cbn [v_count level_entry].
    unfold levels. rewrite map_map. rewrite nth_error_map.
    assert (E : nth_error (seq 0 n) (Z.to_nat (k - 1)) = Some (Z.to_nat (k - 1))).
    { rewrite (nth_error_nth' _ 0%nat); [|rewrite seq_length; lia]. rewrite seq_nth; [reflexivity|lia]. }
    rewrite E. cbn [option_map]. replace (Z.of_nat (S (Z.to_nat (k - 1)))) with k by lia. reflexivity.
  Qed.
  (** With levels 1 .. n in order of first occurrence *)
  Lemma fill_ok l n : firsts [] l = levels n ->
    fill_levels single (level_count l) (blocks_per_level (level_count l)) (sorted (fun s => p_level (s_patch s)) l) =
    Ok (flat_map (sets_of l) (levels n)).
  Proof.
    intro F. rewrite level_count_eq, F.
    rewrite (sorted_having (fun s => p_level (s_patch s)) (levels n) (levels_sorted n)).
    - change (flat_map (fun k => having (fun s => p_level (s_patch s)) k l) (levels n)) with (flat_map (fun k => on_level k l) (levels n)).
      apply fill_levels_ok. intros k I. apply levels_in in I. split; [lia|]. apply blocks_nth. exact I.
    - intros s I. rewrite <- F. apply firsts_in. exists s. split; [exact I|reflexivity].
  Qed.

  (** The other direction: a successful write has no gap in its levels *)
  Lemma fill_levels_in d blocks : forall ss r, fill_levels single d blocks ss = Ok r ->
    Forall (fun e => 0 <= v_level e < Z.of_nat (length blocks))%Z d.
  Proof.
    induction d as [|e d IH]; intros ss r E; [constructor|]. cbn [fill_levels] in E.
    destruct (Z.ltb_spec (v_level e) 0) as [L|L]; [discriminate E|].
    destruct (nth_error blocks (Z.to_nat (v_level e))) as [n|] eqn:En; [|discriminate E].
    assert (K : (Z.to_nat (v_level e) < length blocks)%nat) by (apply nth_error_Some; congruence).
    destruct (fill_blocks single (v_level e) (v_spacing e) ss n 0) as [b|]; [|discriminate E]. cbn [bind] in E.
    destruct (fill_levels single d blocks (skipn n ss)) as [rest|] eqn:Er; [|discriminate E].
    constructor; [lia|]. exact (IH _ _ Er).
  Qed.
  Lemma insert_length {A} (key : A -> Z) x : forall l, length (insert key x l) = S (length l).
  Proof. induction l as [|y l IH]; cbn; [reflexivity|]. destruct (key x <=? key y)%Z; cbn; [reflexivity|]. rewrite IH. reflexivity. Qed.
  Lemma sorted_length {A} (key : A -> Z) l : length (sorted key l) = length l.
  Proof.
    induction l as [|x l IH]; [reflexivity|]. change (sorted key (x :: l)) with (insert key x (sorted key l)).
    rewrite insert_length, IH. reflexivity.
  Qed.

  (** ** Values *)
  Lemma range_length n : length (range n) = Z.to_nat n.
  Proof. unfold range. rewrite map_length, seq_length. reflexivity. Qed.
  Lemma range_nth n i : (0 <= i < n)%Z -> nth_error (range n) (Z.to_nat i) = Some i.
  Proof.
    intro H. unfold range. rewrite nth_error_map, (nth_error_nth' _ 0%nat); [|rewrite seq_length; lia].
    rewrite seq_nth; [|lia]. cbn [option_map]. f_equal. lia.
  Qed.
  Lemma flat_map_rows {A B} (row : A -> list B) w : (forall a, length (row a) = w) -> forall l,
    length (flat_map row l) = (length l * w)%nat /\
    forall i j a, (i < w)%nat -> nth_error l j = Some a -> nth_error (flat_map row l) (i + w * j) = nth_error (row a) i.
  Proof.
    intro W. induction l as [|a l IH].
    - split; [reflexivity|]. intros i [|j] a _ K; discriminate K.
    - destruct IH as (IH1 & IH2). cbn [flat_map]. split.
      + rewrite app_length, W, IH1. reflexivity.
      + intros i [|j] a' Hi K.
        * cbn in K. injection K as <-. rewrite Nat.mul_0_r, Nat.add_0_r. apply nth_error_app1. rewrite W. exact Hi.
        * cbn in K. rewrite nth_error_app2; [|rewrite W; lia]. rewrite W.
          replace (i + w * S j - w)%nat with (i + w * j)%nat by lia. exact (IH2 i j a' Hi K).
  Qed.
  Lemma ravel_values p f : (0 < p_nx p)%Z -> (0 < p_ny p)%Z -> values (fun x => x) p f (ravel p f).
  Proof.
    intros Hx Hy. unfold values, ravel.
    assert (W : forall j, length (map (fun i => f i j) (range (p_nx p))) = Z.to_nat (p_nx p))
      by (intro j; rewrite map_length, range_length; reflexivity).
    destruct (flat_map_rows (fun j => map (fun i => f i j) (range (p_nx p))) _ W (range (p_ny p))) as (H1 & H2). split.
    - rewrite H1, range_length. rewrite Z2Nat.inj_mul by lia. apply Nat.mul_comm.
    - intros i j (Hi & Hj). replace (Z.to_nat (i + p_nx p * j)) with (Z.to_nat i + Z.to_nat (p_nx p) * Z.to_nat j)%nat
        by (rewrite Z2Nat.inj_add, Z2Nat.inj_mul by nia; reflexivity).
      rewrite (H2 _ _ j); [|lia|apply range_nth; exact Hj]. rewrite nth_error_map, (range_nth _ _ Hi). reflexivity.
  Qed.
  Lemma values_map p f v : values (fun x => x) p f v -> values single p f (map single v).
  Proof.
    intros (H1 & H2). split; [rewrite map_length; exact H1|]. intros i j I. rewrite nth_error_map, (H2 i j I). reflexivity.
  Qed.
  Lemma grid_ok s st sp : (0 < p_nx (s_patch s))%Z -> (0 < p_ny (s_patch s))%Z -> Forall2 Qeq sp (spacing (s_patch s)) ->
    grid_for single s st (grid_of single sp (mkState (s_patch s) (s_q s ++ [st]))).
  Proof.
    intros Hx Hy Sp. unfold grid_for, grid_of. cbv zeta. cbn [s_patch s_q g_origin g_spacing g_nodes g_data].
    rewrite removelast_last, last_last.
    replace (length (s_q s ++ [st]) - 1)%nat with (length (s_q s)) by (rewrite app_length; cbn [length]; lia).
    set (F := fun iq : nat * (Z -> Z -> Q) => (lit "q_" ++ str_nat (Z.of_nat (fst iq)), map single (ravel (s_patch s) (snd iq)))).
    assert (L : length (map F (combine (seq 0 (length (s_q s))) (s_q s))) = length (s_q s)).
    { rewrite map_length, combine_length, seq_length. apply Nat.min_id. }
    split; [reflexivity|]. split; [exact Sp|]. split; [reflexivity|]. split; [rewrite app_length, L; cbn; lia|]. split.
    - intros c f K. exists (map single (ravel (s_patch s) f)). split; [|apply values_map, ravel_values; assumption].
      assert (Lc : (c < length (s_q s))%nat) by (apply nth_error_Some; congruence).
      rewrite nth_error_app1 by (rewrite L; exact Lc). rewrite nth_error_map.
      assert (E : nth_error (combine (seq 0 (length (s_q s))) (s_q s)) c = Some (c, f)).
      { rewrite (nth_error_nth' _ (0%nat, f)); [|rewrite combine_length, seq_length; lia].
        rewrite combine_nth by (apply seq_length). rewrite seq_nth by exact Lc. rewrite (nth_error_nth _ _ f K). reflexivity. }
      rewrite E. reflexivity.
    - exists (ravel (s_patch s) st). split; [|apply ravel_values; assumption].
      rewrite nth_error_app2 by (rewrite L; lia). rewrite L, Nat.sub_diag. reflexivity.
  Qed.
End Fill.
