(** Proofs about parallel runs in more dimensions, part 8: whole runs. *)
From Verif Require Import Base TimeModel BCModel BCSpec BCProofs LimiterModel Classic1DModel Classic1DSpec
  GeometrySpec ParallelModel ParallelSpec ParallelProofs4 SweepModel SweepSpec RunModel Par2Model Par2Spec.
Import BCSpec.

Theorem mpar_run_serial (X E : Type) (K K' : mkernel) S boxes
    (left : Q -> arr Q -> arr Q -> arr Q * arr Q) (left' : Q -> arr Q -> arr Q -> arr Q) source source_split before (s : solver E) (so : run_sol X) tend :
  (forall d q aux q' aux' qbc0 auxbc0 auxbc0', same_mcells (n_neq S) (n_bcs S) q q' -> same_mcells (n_naux S) (n_bcs S) aux aux' ->
     match mserial_step K (with_mdt S d) q aux qbc0 auxbc0, mpar_step K' (with_mdt S d) boxes q' aux' auxbc0' with
     | MStepped q1 c1, MStepped q2 c2 => same_mcells (n_neq S) (n_bcs S) q2 q1 /\ c2 == c1
     | _, _ => False
     end) ->
  respects_mcells S before -> (forall f, source = Some f -> forall d, respects_mcells S (f d)) ->
  let r := mserial_run K S left source source_split before s so tend in
  let r' := mpar_run K' S boxes left' source source_split before s so tend in
  same_solver (r_solver r) (r_solver r') /\ same_msolution S (r_sol r) (r_sol r') /\
  Forall2 (same_mevent S) (r_trace r) (r_trace r') /\ r_err r = r_err r'.
Proof.
  intros HP HB HS. cbv zeta.
  assert (CB : forall f, respects_mcells S f -> forall a b : run_sol X, same_msolution S a b ->
     same_msolution S (with_data a (callback f a)) (with_data b (callback f b))).
  { intros f Hf a b (A1 & A2 & A3 & A4). unfold same_msolution, with_data, callback. cbn [sq sx st].
    destruct (sq a) as [q|], (sq b) as [q'|]; try contradiction; cbn [fst snd]; [|auto].
    destruct (Hf (st a) q q' (sx a) (sx b) A1 A2 A3) as (B1 & B2 & B3). rewrite <- A4. auto. }
  assert (R0 : forall a : run_sol X, same_msolution S a a).
  { intros a. unfold same_msolution, same_mcells. destruct (sq a); auto. }
  destruct (classic_evolve_near (option (arr Q)) (arr Q * X) E (same_msolution S)) with
    (source := option_map (fun f dt => callback (f dt)) source) (source_split := source_split) (before := callback before)
    (hyper1 := @mhyper_of X (fun dt q aux => mserial_step K (with_mdt S dt) q aux (fst (left dt q aux)) (snd (left dt q aux))))
    (hyper2 := @mhyper_of X (fun dt q aux => mpar_step K' (with_mdt S dt) boxes q aux (left' dt q aux)))
    (s := s) (s' := s) (a := so) (b := so) (te := tend) as (N & R & T & Er).
  - intros a b (_ & _ & _ & H). exact H.
  - intros a b t (H1 & H2 & H3 & H4). unfold same_msolution. cbn [sq sx st]. auto.
  - intros a b a' b' (H1 & H2 & H3 & H4) (K1 & K2 & K3 & K4). unfold same_msolution. cbn [sq sx st]. auto.
  - intros f Ef d a b H. destruct source as [f0|]; [|discriminate]. injection Ef as <-. apply CB; [|exact H]. apply (HS f0 eq_refl).
  - intros a b H. apply CB; assumption.
  - intros d a b (A1 & A2 & A3 & A4). unfold mhyper_of. destruct (sq a) as [q|] eqn:Ea, (sq b) as [q'|] eqn:Eb; try contradiction.
    + pose proof (HP d q (fst (sx a)) q' (fst (sx b)) (fst (left d q (fst (sx a)))) (snd (left d q (fst (sx a)))) (left' d q' (fst (sx b))) A1 A2) as P.
      destruct (mserial_step _ _ _ _ _ _) as [q1 c1|e], (mpar_step _ _ _ _ _ _) as [q2 c2|e']; try contradiction; cbn [fst snd].
      destruct P as [P1 P2]. split; [|symmetry; exact P2]. unfold same_msolution, with_data. cbn [sq sx st fst snd]. split; [|auto].
      intros m i Hm Hi. symmetry. apply P1; assumption.
    + cbn [fst snd]. split; [|reflexivity]. unfold same_msolution, with_data. cbn [sq sx st fst snd]. auto.
  - exists (cfl s), (st_cflmax s). destruct s. split; [reflexivity|]. split; [reflexivity|]. cbn. destruct st_cflmax; cbn; [reflexivity|exact I].
  - apply R0.
  - unfold mserial_run, mpar_run. split; [|split; [exact R|split; [exact T|exact Er]]].
    revert N. generalize (r_solver (classic_evolve (option_map (fun f dt => callback (f dt)) source) (@mhyper_of X (fun dt q aux => mserial_step K (with_mdt S dt) q aux (fst (left dt q aux)) (snd (left dt q aux)))) source_split (callback before) s so tend)).
    intros u (c & m & -> & Hc & Hm). destruct u. unfold same_solver, set_cfl, set_st_cflmax. cbn in *. auto 10.
Qed.
