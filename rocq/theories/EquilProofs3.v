(** Equilibria in SharpClaw with linear multistep methods: proofs. *)
From Verif Require Import Base TimeModel SharpModel SharpSpec MultiModel SemiSpec SemiProofs2 EquilProofs2.

Section Multi.
Variable Idx DX : Type.
Notation V := (Idx -> Q).
Variables (D : Idx -> Prop) (z : V).
Variables f hook : Q -> V -> V.
Variable speed : Q -> V -> Q.
Hypothesis Hf : forall t u, near D z u -> null D (f t u).
Hypothesis Hh : forall t u, near D z u -> near D z (hook t u).
Variables (lmm_steps : Z) (check : bool) (alpha beta : list Q).
Hypothesis Hlmm : length alpha = Z.to_nat lmm_steps /\ (1 <= lmm_steps)%Z /\ qsum alpha == 1.

Definition hist_near (h : hist Idx) : Prop := forall x, D x -> hist_ok Idx (fun u => u x) (z x) h.
Lemma at_linear (x : Idx) : linear (fun u : V => u x).
Proof. split; intros; reflexivity. Qed.
Lemma lmm_step_near ts te s (so : sol V DX) : hist_near (ext s) -> near D z (sq so) ->
  hist_near (ext (fst (multi_step f speed hook LMM lmm_steps check alpha beta ts te s so))) /\
  near D z (sq (snd (multi_step f speed hook LMM lmm_steps check alpha beta ts te s so))).
Proof.
  intros HA HB. unfold multi_step.
  set (s1 := if accept_step s then _ else s).
  assert (HA1 : hist_near (ext s1)).
  { unfold s1. destruct (accept_step s); [|exact HA]. intros x Hx. destruct (HA x Hx) as (A1 & A2 & A3). unfold hist_ok, set_ext. cbn [ext h_regs h_fs h_dqdt].
    split; [exact A1|]. split; [exact A2|]. apply (Hf (st so) (sq so) HB x Hx). }
  destruct (update_saved_values LMM lmm_steps check s1 so _) as [[s2 so2] i2] eqn:Eu.
  assert (HA2 : hist_near (ext s2)) by (intros x Hx; exact (proj1 (update_keeps Idx DX (fun u => u x) LMM lmm_steps check (z x) _ _ _ _ _ _ (HA1 x Hx) (HB x Hx) Eu))).
  assert (HB2 : near D z (sq so2)) by (intros x Hx; exact (proj2 (update_keeps Idx DX (fun u => u x) LMM lmm_steps check (z x) _ _ _ _ _ _ (HA1 x Hx) (HB x Hx) Eu))).
  pose proof (get_dt_ext Idx LMM lmm_steps check (st so2) ts te s2) as EG. set (s3 := get_dt _ _ _ _ s2) in *.
  cbn [is_ssp]. cbv zeta.
  assert (HA3 : hist_near (ext s3)) by (rewrite EG; exact HA2).
  match goal with |- context [Z.ltb ?a ?b] => destruct (Z.ltb a b) end; (split; [exact HA3|]).
  - change (near D z (ssp104 f hook (dt s3) (h_dqdt (ext s3)) (st so2) (sq so2))). apply ssp104_near; try assumption.
    intros x Hx. apply (HA3 x Hx).
  - change (near D z (match lmm (dt s3) lmm_steps alpha beta (map fst (h_regs (ext s3))) (h_fs (ext s3)) with Some q' => q' | None => sq so2 end)).
    destruct (lmm _ _ _ _ _ _) as [y|] eqn:El; [|exact HB2]. intros x Hx. destruct (HA3 x Hx) as (A1 & A2 & A3).
    exact (lmm_L Idx (fun u => u x) (at_linear x) LMM lmm_steps alpha beta (z x) (fun _ => Hlmm) (dt s3) _ _ y eq_refl (forall_map_fst Idx _ _ _ A1) A2 El).
Qed.
End Multi.
