(** The times of the frames: proofs. *)
From Verif Require Import Base TimeModel TimeSpec TimeProofs TimeProofs2 TimeProofs4 ControllerModel ControllerSpec ControllerProofs.

Section Variable_step.
Context {DQ DX E : Type}.
Variable stepf : Q -> option Q -> solver E -> sol DQ DX -> solver E * sol DQ DX.
Variable acceptf : solver E -> bool.
Variable before : sol DQ DX -> DQ * DX.
Hypothesis Hfr : step_frame stepf.
Hypothesis Hh : honours stepf.
Notation evolve := (evolve_to_time stepf acceptf before).

Lemma evolve_good s so te r : Good s -> st so < te -> evolve s so (Some te) = r -> r_err r = None ->
  Good (r_solver r) /\ same_params s (r_solver r).
Proof.
  intros HG Hlt <-. unfold evolve_to_time. cbv zeta.
  destruct (evolve_setup (st so) (Some te) s) as [s1 [e|]] eqn:Hset; [discriminate|].
  destruct HG as (G1 & G2 & G3 & G4).
  destruct (setup_inv _ _ _ _ Hset G1) as [Hcd Hs1].
  replace (qleb te (st so)) with false in Hs1 by (symmetry; apply qleb_gt; exact Hlt). subst s1.
  set (I := fun (n : Z) (s' : solver E) (so' : sol DQ DX) (tr : list (event DQ DX)) => Good s' /\ same_params s s').
  assert (Hstep : forall n s0 so0 tr s' so' ev e,
     I n s0 so0 tr -> finished (Some te) so0 = false ->
     attempt stepf acceptf before (st so) (Some te) n s0 so0 = (s', so', ev, e) ->
     match e with None => I (n + 1)%Z s' so' (ev :: tr) | Some x => False end).
  { intros n s0 so0 tr s' so' ev e (HG0 & HP0) Hf Ha.
    unfold finished in Hf. apply qleb_gt in Hf.
    destruct (attempt_inv stepf acceptf before Hfr _ _ _ _ _ _ _ _ _ Ha)
      as (s2 & so2 & Hst & Hp1 & Hp2 & Htt & Hdt & Hcfl & _ & _ & _ & _ & Hb & Haf & Hed & Hec & Hacc & _ & Hcase).
    destruct (Hh _ _ _ (mkSol (fst (before so0)) (snd (before so0)) (st so0)) _ _ HG0 Hlt Hf Hst) as [Hd1 Hd2].
    assert (HI : I (n + 1)%Z s' so' (ev :: tr)).
    { split; [eapply Good_same; [exact HG0|exact Hp2|rewrite Hdt; assumption]|exact (same_params_trans _ _ _ HP0 Hp2)]. }
    assert (Hv0 : dt_variable s0 = true) by apply HG0.
    destruct Hcase as [(_ & -> & _)|[(_ & _ & -> & _)|(_ & Hv & _)]]; [exact HI|exact HI|congruence]. }
  destruct (evolve_loop stepf acceptf before (Z.to_nat (max_steps s)) 0 (st so) (Some te) s so 0 [])
    as [[[[s2 so2] num] tr] e2] eqn:Hl.
  assert (HI0 : I 0%Z s so []) by (split; [repeat split; assumption|apply same_params_refl]).
  assert (Hf0 : finished (Some te) so = false) by (unfold finished; apply qleb_gt; assumption).
  pose proof (loop_rule stepf acceptf before te (st so) I (fun _ _ _ _ => False) Hstep _ _ _ _ _ _ _ _ _ _ _ HI0 Hf0 Hl) as HL.
  destruct e2 as [x|]; [contradiction|]. destruct HL as (n' & HI & _). intros _. cbn [r_solver]. exact HI.
Qed.

(** the call reaches its time or runs out of attempts *)
Definition on_time (n : Z) (t : Q) (u : sol DQ DX) : Prop :=
  st u <= t /\
  (st u == t \/ exists s v, r_sol (evolve s v (Some t)) = u /\ r_err (evolve s v (Some t)) = None /\
                 out_of_attempts n (evolve s v (Some t))).

Lemma times_variable ts : forall t s u, Good s -> (0 <= max_steps s)%Z -> st u <= t -> increasing t ts ->
  many_err (many evolve s u (map Some ts)) = None ->
  Forall2 (on_time (max_steps s)) ts (map (fun j => many_sol (many evolve s u (map Some (firstn j ts)))) (seq 1 (length ts))).
Proof.
  induction ts as [|x ts IH]; intros t s u HG Hm Ht Hi He; [constructor|].
  cbn [increasing] in Hi. destruct Hi as [Hx Hi]. cbn [map many] in He.
  destruct (r_err (evolve s u (Some x))) as [e|] eqn:Er; [discriminate|].
  assert (Hlt : st u < x) by lra.
  destruct (evolve_good s u x _ HG Hlt eq_refl Er) as [HG' HP'].
  destruct (evolve_variable stepf acceptf before Hfr Hh s u x _ HG ltac:(lra) eq_refl) as (HT & _ & _).
  assert (Hms : max_steps (r_solver (evolve s u (Some x))) = max_steps s) by apply HP'.
  cbn [length seq map]. constructor.
  - cbn [firstn map many]. rewrite Er. cbn [many_sol fst snd]. split; [apply HT|].
    destruct (normal_return stepf acceptf before Hfr s u x _ (proj1 HG) Hm eq_refl Er) as [H|H].
    + left. lra.
    + right. exists s, u. split; [reflexivity|]. split; [exact Er|]. exact H.
  - rewrite <- seq_shift, map_map.
    specialize (IH x (r_solver (evolve s u (Some x))) (r_sol (evolve s u (Some x))) HG' ltac:(lia) (proj2 HT) Hi He).
    rewrite Hms in IH.
    match goal with |- Forall2 _ _ ?l => replace l with (map (fun j => many_sol (many evolve (r_solver (evolve s u (Some x))) (r_sol (evolve s u (Some x))) (map Some (firstn j ts)))) (seq 1 (length ts))) end; [exact IH|].
    apply map_ext. intros j. cbn [firstn map many]. rewrite Er. reflexivity.
Qed.
End Variable_step.

(** Fixed steps of the classic solver: every output time is a whole number of steps after the previous one. *)
Fixpoint whole_steps (d t : Q) (ts : list Q) : Prop :=
  match ts with
  | [] => True
  | x :: ts' => (exists N, (1 <= N)%Z /\ x == t + inject_Z N * d) /\ whole_steps d x ts'
  end.

Section Fixed_step.
Context {DQ DX E : Type}.
Variables (source : option (Q -> sol DQ DX -> DQ * DX)) (hyper : Q -> sol DQ DX -> DQ * DX * Q) (sp : Z)
  (before : sol DQ DX -> DQ * DX).
Notation evolve := (@classic_evolve DQ DX E source hyper sp before).

Lemma times_fixed ts : forall t s u, dt_variable s = false -> canonical (dt s) -> tol10 < dt s ->
  st u == t -> whole_steps (dt s) t ts -> Forall (fun x => eps14 * x <= dt s) ts ->
  many_err (many evolve s u (map Some ts)) = None ->
  Forall2 (fun t u => st u == t) ts (map (fun j => many_sol (many evolve s u (map Some (firstn j ts)))) (seq 1 (length ts))).
Proof.
  induction ts as [|x ts IH]; intros t s u Hv Hc Hd Ht Hw Hs He; [constructor|].
  cbn [whole_steps] in Hw. destruct Hw as [(N & HN & Hx) Hw]. inversion Hs as [|? ? Hs1 Hs2]; subst.
  assert (Hx' : x == st u + inject_Z N * dt s) by (rewrite Ht; exact Hx).
  destruct (evolve_fixed source hyper sp before s u x N Hv Hc Hd Hx' HN Hs1) as (s' & u' & tr & e & HF & HE).
  destruct (fiter_spec source hyper sp before _ (set_max_steps N s) _ _ _ _ _ Hv HF) as (HP & HD & _ & _ & _ & HC).
  change (dt (set_max_steps N s)) with (dt s) in *.
  cbn [map many] in He. rewrite HE in He. cbn [r_err r_solver r_sol] in He.
  destruct e as [e|]; [discriminate|].
  destruct HC as [(_ & _ & _ & HT)|(HC & _)]; [|discriminate].
  rewrite Z2Nat.id in HT by lia.
  cbn [length seq map]. constructor.
  - cbn [firstn map many]. rewrite HE. cbn [r_err r_solver r_sol many_sol fst snd]. rewrite HT. rewrite Hx'. reflexivity.
  - rewrite <- seq_shift, map_map.
    assert (Hv' : dt_variable s' = false) by (rewrite <- Hv; apply HP).
    assert (K : Forall2 (fun t u => st u == t) ts (map (fun j => many_sol (many evolve s' u' (map Some (firstn j ts)))) (seq 1 (length ts)))).
    { apply (IH x s' u'); rewrite ?HD; try assumption. rewrite HT, Hx'. reflexivity. }
    match goal with |- Forall2 _ _ ?l => replace l with (map (fun j => many_sol (many evolve s' u' (map Some (firstn j ts)))) (seq 1 (length ts))) end; [exact K|].
    apply map_ext. intros j. cbn [firstn map many]. rewrite HE. reflexivity.
Qed.
End Fixed_step.

Lemma concat_singletons (ts : list Q) j : concat (firstn j (map (fun t => [Some t]) ts)) = map Some (firstn j ts).
Proof.
  revert j. induction ts as [|t ts IH]; intros [|j]; try reflexivity.
  cbn [map firstn concat app]. f_equal. apply IH.
Qed.

(** equal intervals increase *)
Lemma intervals_increasing a b n (ts : list Q) : a < b -> Z.of_nat (length ts) = n ->
  (forall i x, nth_error ts i = Some x -> x == a + (b - a) * inject_Z (Z.of_nat i + 1) / inject_Z n) ->
  increasing a ts.
Proof.
  intros Hab Hn H.
  destruct ts as [|t0 ts0]; [exact I|].
  assert (N0 : 0 < inject_Z n) by (change 0 with (inject_Z 0); rewrite <- Zlt_Qlt; cbn [length] in Hn; lia).
  assert (D0 : 0 < (b - a) / inject_Z n) by (apply Qdiv_pos; lra).
  assert (H' : forall i x, nth_error (t0 :: ts0) i = Some x -> x == a + inject_Z (Z.of_nat i + 1) * ((b - a) / inject_Z n)).
  { intros i x Hi. rewrite (H i x Hi). field. lra. }
  clear H Hn. set (d := (b - a) / inject_Z n) in *. clearbody d. clear N0 Hab b n.
  assert (K : forall ts k t, t == a + inject_Z (Z.of_nat k) * d ->
     (forall i x, nth_error ts i = Some x -> x == a + inject_Z (Z.of_nat (k + i) + 1) * d) -> increasing t ts).
  { induction ts as [|x ts IH]; intros k t Ht Hx; [exact I|]. cbn [increasing].
    pose proof (Hx 0%nat x eq_refl) as E0. rewrite Nat.add_0_r in E0. split.
    - rewrite Ht, E0, inject_Z_plus. change (inject_Z 1) with 1. lra.
    - apply (IH (S k)).
      + rewrite E0. rewrite Nat2Z.inj_succ. unfold Z.succ. reflexivity.
      + intros i y Hy. rewrite (Hx (S i) y Hy). replace (k + S i)%nat with (S k + i)%nat by lia. reflexivity. }
  apply (K (t0 :: ts0) 0%nat a); [change (inject_Z (Z.of_nat 0)) with 0; lra|]. intros i x Hi. rewrite (H' i x Hi). reflexivity.
Qed.
