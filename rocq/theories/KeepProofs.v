(** Runs of the SSP multistep methods keep linear quantities that the right-hand side does not change: proofs. *)
From Verif Require Import Base TimeModel SharpModel SharpSpec MultiModel MultiSpec MultiProofs MultiProps SemiSpec.

Section Keep.
Variable Idx DX : Type.
Notation V := (Idx -> Q).
(** a family of linear quantities L w, with the values M w *)
Variables (W : Type) (L : W -> V -> Q) (M : W -> Q).
Hypothesis HL : forall w, linear (L w).
Hypothesis Hext : forall w u v, veq u v -> L w u == L w v.
Definition kept (u : V) : Prop := forall w, L w u == M w.
Variables f hook : Q -> V -> V.
Hypothesis Hf : forall t u, kept u -> forall w, L w (f t u) == 0.
Hypothesis Hh : forall t u, kept u -> kept (hook t u).

Lemma kept_ssp22 d t q : kept q -> kept (ssp22 f hook d (f t q) t q).
Proof.
  intros K w. unfold ssp22. cbv zeta. set (r := hook _ _). unfold dq.
  assert (Kr : kept r).
  { apply Hh. intro v. rewrite (proj1 (HL v)), (proj2 (HL v)), (Hf t q K v), (K v). ring. }
  rewrite (proj2 (HL w)), !(proj1 (HL w)), (proj2 (HL w)), (Hf _ r Kr w), (K w), (Kr w). field.
Qed.
Lemma kept_k2 om d q fq old u : ~ om == 0 -> kept q -> (forall w, L w fq == 0) -> kept old -> veq u (k2_formula om d q fq old) -> kept u.
Proof.
  intros Ho Kq Kf Ko E w. rewrite (Hext w u _ E).
  rewrite (Hext w (k2_formula om d q fq old)
    (vadd (vscale ((om + 1) / om) (vadd (vscale ((om - 1) / om) q) (vscale d fq))) (vscale (1 / (om * om)) old))) by (intro i; reflexivity).
  rewrite (proj1 (HL w)), (proj2 (HL w)), (proj1 (HL w)), !(proj2 (HL w)), (Kq w), (Kf w), (Ko w). field. exact Ho.
Qed.
Lemma kept_k3 om d q fq old fo u : ~ om == 0 -> kept q -> (forall w, L w fq == 0) -> kept old -> (forall w, L w fo == 0) ->
  veq u (k3_formula om d q fq old fo) -> kept u.
Proof.
  intros Ho Kq Kf Ko Kg E w. rewrite (Hext w u _ E).
  set (r := (om - 2) / om). set (b0 := (om + 1) / (om * om)).
  rewrite (Hext w (k3_formula om d q fq old fo)
    (vadd (vadd (vscale ((om + 1) * (om + 1) / (om * om)) (vadd (vscale r q) (vscale d fq)))
             (vscale (r * b0 + (4 * (om + 1) - om * om) / (om * om * om)) old)) (vscale (b0 * d) fo))) by (intro i; reflexivity).
  rewrite !(proj1 (HL w)), !(proj2 (HL w)), (proj1 (HL w)), !(proj2 (HL w)), (Kq w), (Kf w), (Ko w), (Kg w). unfold r, b0. field. exact Ho.
Qed.

Notation zz := ((fun _ => 0, 0) : V * Q).
(** times that increase along a list of solutions *)
Definition later (l : list (V * Q)) : Prop := forall i j, (i < j < length l)%nat -> snd (nth i l zz) < snd (nth j l zz).
Lemma last_is_nth (l : list (V * Q)) : the_last l = nth (length l - 1) l zz.
Proof.
  unfold the_last. induction l as [|a l IH]; [reflexivity|]. destruct l as [|b l]; [reflexivity|].
  change (last (a :: b :: l) zz) with (last (b :: l) zz). rewrite IH. cbn [length]. 
  replace (S (S (length l)) - 1)%nat with (S (S (length l) - 1)) by lia. reflexivity.
Qed.
Lemma later_snoc l x : l <> [] -> later l -> snd (the_last l) < snd x -> later (l ++ [x]).
Proof.
  intros Hn H Hx i j Hij. rewrite app_length in Hij. cbn [length] in Hij. rewrite last_is_nth in Hx.
  rewrite (app_nth1 l [x]) by lia. destruct (Nat.eq_dec j (length l)) as [->|Nj].
  - rewrite app_nth2, Nat.sub_diag by lia. cbn [nth].
    destruct (Nat.eq_dec i (length l - 1)) as [->|Ni]; [exact Hx|]. eapply Qlt_trans; [apply (H i (length l - 1)%nat); lia|exact Hx].
  - rewrite app_nth1 by lia. apply H. lia.
Qed.

Lemma run_kept I k so0 tr : (2 <= k)%nat -> (I = SSPLMMk2 \/ I = SSPLMMk3) -> kept (sq so0) ->
  history_respected f hook I k [] [] true so0 tr ->
  Forall (fun ev : event V DX => ev_accepted ev = true -> 0 < ev_dt ev) tr ->
  Forall (fun p => kept (fst p)) (solutions so0 tr) /\ later (solutions so0 tr).
Proof.
  intros Hk HI K0. induction tr as [|ev tr IH] using rev_ind; intros HR HP.
  - split; [repeat constructor; exact K0|]. intros i j Hij. cbn in Hij. lia.
  - apply Forall_app in HP. destruct HP as [HP1 HP2]. inversion HP2 as [|? ? HP3 _]; subst.
    destruct IH as [IK IL]; [|exact HP1|].
    { intros tr1 e tr2 E. apply (HR tr1 e (tr2 ++ [ev])). rewrite E, <- app_assoc. reflexivity. }
    rewrite solutions_snoc. destruct (ev_accepted ev) eqn:Ea; [|split; assumption].
    destruct (HR tr ev [] eq_refl) as (HB & HA & _). destruct (HA Ea) as [HM HT]. specialize (HP3 eq_refl). specialize (HT eq_refl).
    set (past := solutions so0 tr) in *.
    assert (Hne : past <> []) by (unfold past, solutions; discriminate).
    assert (Hlen : (1 <= length past)%nat) by (destruct past; [congruence|cbn; lia]).
    assert (Kn : forall j, (j < length past)%nat -> kept (fst (nth j past zz))).
    { intros j Hj. rewrite Forall_forall in IK. apply IK, nth_In. exact Hj. }
    assert (Kl : kept (fst (the_last past))) by (rewrite last_is_nth; apply Kn; lia).
    assert (Tl : snd (the_last past) = st (ev_before ev)) by (rewrite <- HB; reflexivity).
    split.
    + apply Forall_app. split; [exact IK|]. repeat constructor. cbn [here fst]. unfold multistep in HM.
      destruct (Nat.ltb (length past) k) eqn:El.
      * assert (E : sq (ev_after ev) = ssp22 f hook (ev_dt ev) (slope f (the_last past)) (snd (the_last past)) (fst (the_last past)))
          by (destruct HI as [-> | ->]; exact HM).
        rewrite E. apply kept_ssp22. exact Kl.
      * apply Nat.ltb_ge in El.
        assert (Ko : kept (fst (nth_of_last k past 0))) by (apply Kn; lia).
        assert (Hom : ~ (snd (the_last past) - snd (nth_of_last k past 0)) / ev_dt ev == 0).
        { assert (X : snd (nth_of_last k past 0) < snd (the_last past)) by (rewrite last_is_nth; apply IL; lia).
          assert (Y : 0 < (snd (the_last past) - snd (nth_of_last k past 0)) / ev_dt ev).
          { apply Qlt_shift_div_l; [exact HP3|]. lra. }
          lra. }
        destruct HI as [-> | ->].
        -- apply (kept_k2 _ _ _ _ _ _ Hom Kl (Hf _ _ Kl) Ko HM).
        -- apply (kept_k3 _ _ _ _ _ _ _ Hom Kl (Hf _ _ Kl) Ko (Hf _ _ Ko) HM).
    + apply later_snoc; [exact Hne|exact IL|]. cbn [here snd]. rewrite Tl, HT. lra.
Qed.
End Keep.
