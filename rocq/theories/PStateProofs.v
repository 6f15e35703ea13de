(** States of serial and parallel programs: proofs. *)
From Coq Require Import Permutation.
From Verif Require Import Base PStateModel PStateSpec.

Section Sim.
Variable cells : list nat.
Variable blank : nat -> list Q.
Hypothesis Hblank : forall n, length (blank n) = n.

Definition Rk (k : known) (a : option nd) (b : option vec) : Prop :=
  match k with
  | Absent => a = None /\ b = None
  | Present c w r => exists da vs, a = Some (mkNd (c :: cells) da) /\ b = Some (mkV c w vs) /\ (1 <= c)%nat /\
      length da = size (c :: cells) /\ length vs = size (c :: cells) /\ (r = true -> da = vs)
  end.
Record Rel (u : usage) (s : sstate) (p : pstate) : Prop := mkRel {
  r_q : Rk (u_q u) (s_q s) (Some (p_q p)); r_aux : Rk (u_aux u) (s_aux s) (p_aux p);
  r_p : Rk (u_p u) (s_p s) (p_p p); r_F : Rk (u_F u) (s_F s) (p_F p) }.

Lemma rel_get u s p v : Rel u s p -> Rk (known_of v u) (s_get v s) (p_get v p).
Proof. intros [A B C D]. destruct v; assumption. Qed.
Lemma rel_set u s p v k a b : Rel u s p -> Rk k (Some a) (Some b) -> Rel (know v k u) (s_set v (Some a) s) (p_set v b p).
Proof. intros [A B C D] H. destruct v; constructor; cbn; assumption. Qed.
Lemma same_shape_eq a b : same_shape a b = true <-> a = b.
Proof. unfold same_shape. destruct (list_eq_dec Nat.eq_dec a b); split; congruence. Qed.
Lemma fits_eq c a : fits cells c a = true -> exists l, a = mkNd (c :: cells) l /\ length l = size (c :: cells).
Proof.
  unfold fits. intro H. apply andb_true_iff in H. destruct H as [A B]. apply same_shape_eq in A. apply Nat.eqb_eq in B.
  destruct a as [sh l]. cbn [shape data] in *. subst sh. exists l. split; [reflexivity|exact B].
Qed.
Lemma put_length k x l : length (put k x l) = length l.
Proof. revert k. induction l as [|y l IH]; intro k; destruct k; cbn [put length]; try reflexivity. rewrite IH. reflexivity. Qed.
Lemma know_same v k u : known_of v u = k -> know v k u = u.
Proof. intros <-. destruct u, v; reflexivity. Qed.

Lemma sim_step u s p o u' : Rel u s p -> use cells u o = Some u' ->
  snd (p_step cells p o) = snd (s_step cells blank s o) /\ Rel u' (fst (s_step cells blank s o)) (fst (p_step cells p o)).
Proof.
  intros R. destruct o as [v|v a|v a|v ix x|n|n k|i|w|v ng|]; cbn [use].
  - (* Read *) intro U. pose proof (rel_get _ _ _ v R) as G. cbn [s_step p_step fst snd]. unfold p_read.
    destruct (known_of v u) as [|c w r] eqn:K; cbn [is_ready] in U.
    + destruct G as [-> ->]. destruct v; try discriminate U. destruct (u_aux u); [|discriminate U]. injection U as <-. split; [reflexivity|exact R].
    + destruct G as (da & vs & -> & -> & _ & _ & _ & E). destruct r.
      * injection U as <-. rewrite (E eq_refl). split; [reflexivity|exact R].
      * exfalso. destruct v; try discriminate U. cbn [known_of] in K. rewrite K in U. discriminate U.
  - (* Assign *) pose proof (rel_get _ _ _ v R) as G. cbn [s_step p_step]. intro U.
    assert (P : forall c w r, known_of v u = Present c w r -> v <> FF -> fits cells c a = true ->
      snd (p_assign cells v a p) = ODone /\ Rel (know v (Present c w true) u) (s_set v (Some a) s) (fst (p_assign cells v a p))).
    { intros c w r K NF F. rewrite K in G. destruct G as (da & vs & Ga & Gb & C1 & L1 & L2 & _). destruct (fits_eq _ _ F) as (l & -> & LL).
      assert (SA : set_array (mkV c w vs) l = (mkV c w l, ODone)).
      { unfold set_array. cbn [v_vals v_dof v_width]. rewrite LL, L2, Nat.eqb_refl. reflexivity. }
      assert (RR : Rk (Present c w true) (Some (mkNd (c :: cells) l)) (Some (mkV c w l))) by (exists l, l; repeat split; assumption).
      pose proof (rel_set _ _ _ v _ _ _ R RR) as RS.
      destruct v; cbn [p_get] in Gb; unfold p_assign; cbn [shape data]; try congruence.
      - injection Gb as Gb. rewrite Gb, SA. split; [reflexivity|exact RS].
      - rewrite Gb, SA. split; [reflexivity|exact RS].
      - rewrite Gb, SA. split; [reflexivity|exact RS]. }
    cbn [snd fst]. destruct v; destruct (known_of _ u) as [|c w r] eqn:K; try discriminate U.
    + destruct (fits cells c a) eqn:F; [|discriminate U]. injection U as <-. apply (P c w r); [reflexivity|discriminate|exact F].
    + destruct G as [Ga Gb]. cbn [s_get p_get] in Ga, Gb. destruct (shape a) as [|[|c] sh] eqn:SH; try discriminate U.
      destruct (fits cells (S c) a) eqn:F; [|discriminate U]. injection U as <-. destruct (fits_eq _ _ F) as (l & -> & LL).
      cbn [shape] in SH. unfold p_assign. rewrite Gb. cbn [shape data]. unfold set_array, create. cbn [v_vals v_dof v_width].
      rewrite repeat_length, LL, Nat.eqb_refl. split; [reflexivity|]. apply (rel_set u s p FAux (Present (S c) 0 true)); [exact R|]. exists l, l. repeat split; try assumption. lia.
    + destruct (fits cells c a) eqn:F; [|discriminate U]. injection U as <-. apply (P c w r); [reflexivity|discriminate|exact F].
    + destruct (fits cells c a) eqn:F; [|discriminate U]. injection U as <-. apply (P c w r); [reflexivity|discriminate|exact F].
  - (* Fill *) pose proof (rel_get _ _ _ v R) as G. cbn [s_step p_step]. unfold s_write, p_write. intro U.
    destruct (known_of v u) as [|c w r] eqn:K.
    + destruct G as [-> ->]. injection U as <-. split; [reflexivity|exact R].
    + destruct G as (da & vs & -> & -> & C1 & L1 & L2 & _). destruct (fits cells c a) eqn:F; [|discriminate U]. injection U as <-.
      destruct (fits_eq _ _ F) as (l & -> & LL). unfold fill, view, with_data. cbn [shape data v_dof v_width v_vals].
      rewrite (proj2 (same_shape_eq (c :: cells) (c :: cells)) eq_refl). cbn [fst snd data]. split; [reflexivity|].
      apply rel_set; [exact R|]. exists l, l. repeat split; assumption.
  - (* Poke *) pose proof (rel_get _ _ _ v R) as G. cbn [s_step p_step]. unfold s_write, p_write. intro U.
    destruct (known_of v u) as [|c w [|]] eqn:K; [| |discriminate U]; injection U as <-.
    + destruct G as [-> ->]. split; [reflexivity|exact R].
    + destruct G as (da & vs & -> & -> & C1 & L1 & L2 & E). specialize (E eq_refl). subst vs.
      unfold poke, view, with_data. cbn [shape data v_dof v_width v_vals]. rewrite <- (know_same v _ u K).
      destruct (offset (c :: cells) ix) as [k|]; cbn [fst snd data]; (split; [reflexivity|]); apply rel_set; try exact R.
      * exists (put k x da), (put k x da). rewrite put_length. repeat split; assumption.
      * exists da, da. repeat split; assumption.
  - (* Num *) cbn [s_step p_step fst snd]. pose proof (rel_get _ _ _ (number_field n) R) as G. intro U.
    assert (E : p_num n p = s_num n s /\ u' = u); [|destruct E as [E ->]; split; [exact E|exact R]].
    destruct n; cbn [number_field known_of s_get p_get] in G, U; cbn [p_num s_num].
    + injection U as <-. split; [|reflexivity]. destruct (u_q u); [destruct G; discriminate|]. destruct G as (da & vs & -> & Gb & _). injection Gb as ->. reflexivity.
    + injection U as <-. split; [|reflexivity]. destruct (u_aux u); [destruct G as [-> ->]; reflexivity|]. destruct G as (da & vs & -> & -> & _). reflexivity.
    + destruct (u_p u); [discriminate U|]. injection U as <-. destruct G as (da & vs & -> & -> & _). split; reflexivity.
    + destruct (u_F u); [discriminate U|]. injection U as <-. destruct G as (da & vs & -> & -> & _). split; reflexivity.
  - (* SetNum *) destruct n; cbn [number_field]; intro U.
    + injection U as <-. split; [reflexivity|exact R].
    + injection U as <-. split; [reflexivity|exact R].
    + pose proof (rel_get _ _ _ FP R) as G. cbn [s_step p_step]. unfold p_set_num. destruct (known_of FP u) as [|c w r] eqn:K.
      * destruct G as [Ga Gb]. rewrite Gb. cbn [s_get] in Ga. rewrite Ga. destruct (Nat.leb_spec 1 k) as [Hk|_]; [|discriminate U]. injection U as <-.
        unfold new_array. rewrite (proj2 (Nat.eqb_neq k 0) ltac:(lia)). split; [reflexivity|]. apply (rel_set u s p FP (Present k 0 false)); [exact R|].
        exists (blank (size (k :: cells))), (repeat 0 (size (k :: cells))). rewrite Hblank, repeat_length. repeat split; try assumption. discriminate.
      * destruct G as (da & vs & Ga & Gb & _). rewrite Gb. cbn [s_get] in Ga. rewrite Ga. injection U as <-. split; [reflexivity|exact R].
    + pose proof (rel_get _ _ _ FF R) as G. cbn [s_step p_step]. unfold p_set_num. destruct (known_of FF u) as [|c w r] eqn:K.
      * destruct G as [Ga Gb]. rewrite Gb. cbn [s_get] in Ga. rewrite Ga. destruct (Nat.leb_spec 1 k) as [Hk|_]; [|discriminate U]. injection U as <-.
        unfold new_array. rewrite (proj2 (Nat.eqb_neq k 0) ltac:(lia)). split; [reflexivity|]. apply (rel_set u s p FF (Present k 0 false)); [exact R|].
        exists (blank (size (k :: cells))), (repeat 0 (size (k :: cells))). rewrite Hblank, repeat_length. repeat split; try assumption. discriminate.
      * destruct G as (da & vs & Ga & Gb & _). rewrite Gb. cbn [s_get] in Ga. rewrite Ga. injection U as <-. split; [reflexivity|exact R].
  - (* SumF *) intro U. pose proof (r_F _ _ _ R) as G. cbn [s_step p_step fst snd]. destruct (u_F u) as [|c w [|]]; try discriminate U.
    destruct G as (da & vs & -> & -> & _ & _ & _ & E). specialize (E eq_refl). subst vs. cbn [shape data v_dof v_vals].
    destruct (i <? c)%nat; [|discriminate U]. injection U as <-. split; [reflexivity|exact R].
  - (* SetGhost *) intro U. injection U as <-. cbn [s_step p_step fst snd]. split; [reflexivity|]. destruct R as [A B C D].
    constructor; cbn [u_q u_aux u_p u_F p_set_ghost p_q p_aux p_p p_F]; try assumption.
    + destruct (u_q u); [destruct A; discriminate|]. destruct A as (da & vs & Ea & Eb & A). injection Eb as ->. exists da, vs. split; [exact Ea|]. split; [reflexivity|exact A].
    + destruct (u_aux u); [destruct B as [-> ->]; split; reflexivity|]. destruct B as (da & vs & -> & -> & B). exists da, vs. split; [reflexivity|]. split; [reflexivity|exact B].
  - (* Interior *) intro U. pose proof (rel_get _ _ _ v R) as G. cbn [s_step p_step fst snd].
    destruct v; destruct (known_of _ u) as [|c w [|]] eqn:K; try discriminate U;
      (destruct (Nat.eqb_spec ng w) as [->|]; [|discriminate U]); (destruct (Nat.leb_spec 1 w) as [Hw|]; [|discriminate U]); injection U as <-;
      destruct G as (da & vs & Ga & Gb & _ & _ & _ & E); specialize (E eq_refl); subst vs; cbn [s_get p_get] in Ga, Gb |- *; rewrite Ga; cbn [shape];
      rewrite (proj2 (same_shape_eq cells cells) eq_refl).
    + injection Gb as ->. unfold p_interior. cbn [v_width]. rewrite Nat.eqb_refl. split; [reflexivity|exact R].
    + rewrite Gb. unfold p_interior. cbn [v_width]. rewrite Nat.eqb_refl. split; [reflexivity|exact R].
  - (* DeepCopy *) destruct R as [A B C D]. destruct (u_q u) as [|c w r] eqn:K; [discriminate|]. intro U. injection U as <-.
    destruct A as (da & vs & Ea & Eb & A). injection Eb as Eb. cbn [s_step p_step]. unfold s_num. rewrite Ea. replace (first_size (mkNd (c :: cells) da)) with (ONum c) by reflexivity.
    assert (N : exists k, match s_aux s with Some a => first_size a | None => ONum 0 end = ONum k).
    { destruct (u_aux u); [destruct B as [-> _]; exists 0%nat; reflexivity|]. destruct B as (db & vb & -> & _). eexists. reflexivity. }
    destruct N as (k & ->). cbn [fst snd]. rewrite Eb. cbn [v_width]. split; [reflexivity|].
    constructor; cbn [p_set_ghost u_q u_aux u_p u_F s_q s_aux s_p s_F p_q p_aux p_p p_F]; try (split; reflexivity).
    + exists da, vs. split; [reflexivity|]. split; [reflexivity|exact A].
    + destruct (u_aux u); [destruct B as [-> ->]; split; reflexivity|]. destruct B as (db & vb & -> & -> & B). exists db, vb. split; [reflexivity|]. split; [reflexivity|exact B].
Qed.
Lemma sim_run_states l : forall u s p, Rel u s p -> proper cells u l = true -> snd (p_run cells p l) = snd (s_run cells blank s l).
Proof.
  induction l as [|o l IH]; intros u s p R P; [reflexivity|]. cbn [proper] in P. destruct (use cells u o) as [u'|] eqn:U; [|discriminate].
  destruct (sim_step u s p o u' R U) as [E R']. cbn [p_run s_run]. destruct (s_step cells blank s o) as [s1 x]. destruct (p_step cells p o) as [p1 y].
  cbn [fst snd] in E, R'. subst y. specialize (IH u' s1 p1 R' P). destruct (s_run cells blank s1 l), (p_run cells p1 l). cbn [snd] in *. rewrite IH. reflexivity.
Qed.
Lemma new_rel neqn naux : (1 <= neqn)%nat -> Rel (new_usage neqn naux) (s_new cells blank neqn naux) (p_new cells neqn naux).
Proof.
  intro H. assert (X : forall c, (1 <= c)%nat -> Rk (Present c 0 false) (new_array cells blank c) (Some (create cells c 0))).
  { intros c Hc. unfold new_array. rewrite (proj2 (Nat.eqb_neq c 0) ltac:(lia)). eexists _, _. split; [reflexivity|]. split; [reflexivity|].
    rewrite Hblank, repeat_length. repeat split; try assumption. discriminate. }
  constructor; cbn [new_usage s_new p_new u_q u_aux u_p u_F s_q s_aux s_p s_F p_q p_aux p_p p_F]; [exact (X neqn H)| |split; reflexivity|split; reflexivity].
  destruct (Nat.eqb_spec naux 0) as [->|N]; [split; reflexivity|]. apply X. lia.
Qed.
End Sim.

(** Totals *)
Lemma qsum_app a b : qsum (a ++ b) == qsum a + qsum b.
Proof. induction a as [|x a IH]; cbn [app qsum fold_right]; [unfold qsum; ring|]. fold (qsum (a ++ b)) (qsum a). rewrite IH. ring. Qed.
Lemma qsum_perm a b : Permutation a b -> qsum a == qsum b.
Proof. induction 1; cbn [qsum fold_right]; [reflexivity|rewrite IHPermutation; reflexivity|ring|]. etransitivity; eassumption. Qed.
Lemma qsum_concat l : qsum (concat l) == qsum (map qsum l).
Proof. induction l as [|x l IH]; [reflexivity|]. cbn [concat map]. rewrite qsum_app, IH. reflexivity. Qed.
Lemma qsum_abs l : Forall (fun x => 0 <= x) l -> qsum (map Qabs l) == qsum l.
Proof. induction 1 as [|x l H _ IH]; [reflexivity|]. cbn [map qsum fold_right]. fold (qsum (map Qabs l)) (qsum l). rewrite IH, (Qabs_pos x H). reflexivity. Qed.
Lemma all_sums_map {A} (f : A -> Q) (g : A -> obs) l : (forall x, In x l -> g x = OSum (f x)) -> all_sums (map g l) = Some (map f l).
Proof.
  induction l as [|x l IH]; intro H; [reflexivity|]. cbn [map all_sums]. rewrite (H x (or_introl eq_refl)), (IH (fun y I => H y (or_intror I))). reflexivity.
Qed.
Lemma Forall_component (P : Q -> Prop) c i l : (forall k, (k < length l)%nat -> P (nth k l 0)) -> (i < c)%nat -> Forall P (component c i l).
Proof.
  intros H Hi. unfold component. apply Forall_forall. intros x Hx. apply in_map_iff in Hx. destruct Hx as (k & <- & Hk). apply in_seq in Hk.
  apply H. pose proof (Nat.mul_div_le (length l) c ltac:(lia)). nia.
Qed.
