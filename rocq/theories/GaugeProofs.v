(** Proofs for the gauges. *)
From Verif Require Import Base TimeModel TimeSpec TimeProofs TimeProofs2 GaugeModel GaugeSpec.

Lemma set_nth_app {A} (a b : list A) (x y : A) : set_nth (length a) y (a ++ x :: b) = a ++ y :: b.
Proof.
  unfold set_nth. rewrite firstn_app, firstn_all, Nat.sub_diag. cbn [firstn]. rewrite app_nil_r.
  replace (S (length a)) with (length a + 1)%nat by lia. rewrite skipn_app, skipn_all2 by lia.
  replace (length a + 1 - length a)%nat with 1%nat by lia. reflexivity.
Qed.
Lemma nth_app_mid {A} (a b : list A) (x d : A) : nth (length a) (a ++ x :: b) d = x.
Proof. rewrite app_nth2, Nat.sub_diag by lia. reflexivity. Qed.
Lemma nth_error_mid {A} (a b : list A) (x : A) : nth_error (a ++ x :: b) (length a) = Some x.
Proof. rewrite nth_error_app2, Nat.sub_diag by lia. reflexivity. Qed.

Section G.
Variables DQ DX : Type.
Variable num_dim : Z.
Variable qat : DQ -> list Z -> list Q.
Variable auxat : DX -> option (list Z -> list Q).
Variable compute : list Q -> option (list Q) -> list Q.
Variable m : nat.
Hypothesis Hm : forall v a, length (compute v a) = m.
Hypothesis Hdim : (num_dim = 1 \/ num_dim = 2)%Z.

Notation rows := (gauge_rows qat auxat compute).
Notation sol := (sol DQ DX).

Lemma value_ok (u : sol) cell : Z.of_nat (length cell) = num_dim ->
  gauge_value num_dim qat auxat compute u cell = inl (compute (qat (sq u) cell) (option_map (fun f => f cell) (auxat (sx u)))).
Proof.
  intros L. unfold gauge_value. destruct Hdim as [E|E]; rewrite E in L |- *.
  - destruct cell as [|a [|b l]]; cbn [length] in L; try lia. reflexivity.
  - destruct cell as [|a [|b [|c l]]]; cbn [length] in L; try lia. reflexivity.
Qed.

Variable L : list (list Z * Z).
Hypothesis HL : Forall (fun cn => Z.of_nat (length (fst cn)) = num_dim) L.
Variable keepb : bool.
Variable oldf : Z -> option (list row).
Variable dirb : bool.

Definition H (us : list sol) (cn : list Z * Z) : handle := mkHandle (snd cn) true (rows (fst cn) us).
Definition R (us : list sol) (cn : list Z * Z) : list row := rows (fst cn) us.
Definition datas (us : list sol) (l : list (list Z * Z)) : list (list row) :=
  match us with [] => [] | _ => map (R us) l end.
(** the gauges in the middle of a call for the solution that follows [us] *)
Definition mid (us : list sol) (u : sol) (pre post : list (list Z * Z)) : gauges :=
  mkGauges (map fst L) (map snd L) (map (H (us ++ [u])) pre ++ map (H us) post) keepb
    (if keepb then map (R (us ++ [u])) pre ++ datas us post else []) oldf dirb.
(** the gauges after calls for these solutions *)
Definition G (us : list sol) : gauges :=
  mkGauges (map fst L) (map snd L) (map (H us) L) keepb (if keepb then datas us L else []) oldf dirb.

Lemma mid_start us u : mid us u [] L = G us.
Proof. reflexivity. Qed.
Lemma mid_end us u : mid us u L [] = G (us ++ [u]).
Proof.
  unfold mid, G. cbn [map]. rewrite !app_nil_r. f_equal. destruct keepb; [|reflexivity].
  replace (datas us []) with (@nil (list row)) by (destruct us; reflexivity). rewrite app_nil_r.
  destruct us; reflexivity.
Qed.

Lemma rows_snoc cell us u : rows cell (us ++ [u]) = rows cell us ++ [(st u, compute (qat (sq u) cell) (option_map (fun f => f cell) (auxat (sx u))))].
Proof. unfold gauge_rows. rewrite map_app. reflexivity. Qed.

Lemma write_gauge_mid us u pre cn post : L = pre ++ cn :: post ->
  write_gauge num_dim qat auxat compute u (length pre) (fst cn) (mid us u pre (cn :: post)) = (mid us u (pre ++ [cn]) post, None).
Proof.
  intros EL. assert (Hc : Z.of_nat (length (fst cn)) = num_dim).
  { rewrite Forall_forall in HL. apply HL. rewrite EL. apply in_or_app. right. left. reflexivity. }
  unfold write_gauge. rewrite value_ok by exact Hc. set (p := compute _ _).
  assert (RE : record (length pre) (st u, p) (mid us u pre (cn :: post)) =
    (set_data (if keepb then map (R (us ++ [u])) (pre ++ [cn]) ++ datas us post else []) (mid us u pre (cn :: post)), None)).
  { unfold record. change (g_keep (mid us u pre (cn :: post))) with keepb.
    unfold mid. destruct keepb; [|reflexivity]. cbn [g_data g_cells]. rewrite app_length, !map_length.
    destruct us as [|v vs] eqn:EU.
    - cbn [datas length]. rewrite Nat.add_0_r. replace (Nat.eqb (length pre) (length L)) with false
        by (symmetry; apply Nat.eqb_neq; rewrite EL, app_length; cbn [length]; lia).
      unfold set_data. cbn [g_cells g_names g_files g_keep g_data g_old g_dir]. rewrite map_app. cbn [map app].
      rewrite !app_nil_r. reflexivity.
    - rewrite <- EU. replace (datas us (cn :: post)) with (R us cn :: map (R us) post) by (rewrite EU; reflexivity).
      replace (datas us post) with (map (R us) post) by (rewrite EU; reflexivity).
      cbn [length]. rewrite map_length. replace (Nat.eqb _ (length L)) with true
        by (symmetry; apply Nat.eqb_eq; rewrite EL, app_length; cbn [length]; lia).
      assert (NTH : nth (length pre) (map (R (us ++ [u])) pre ++ R us cn :: map (R us) post) [] = R us cn)
        by (rewrite <- (map_length (R (us ++ [u])) pre) at 1; apply nth_app_mid).
      rewrite !NTH.
      replace (forallb _ _) with true.
      2:{ symmetry. apply forallb_forall. intros x Hx. unfold R, gauge_rows in Hx. apply in_map_iff in Hx.
          destruct Hx as (y & <- & _). cbn [snd]. unfold p. rewrite !Hm. apply Nat.eqb_refl. }
      rewrite <- (map_length (R (us ++ [u])) pre) at 1. rewrite set_nth_app.
      unfold set_data. cbn [g_cells g_names g_files g_keep g_data g_old g_dir]. rewrite map_app. cbn [map].
      rewrite <- app_assoc. cbn [app]. replace (R (us ++ [u]) cn) with (R us cn ++ [(st u, p)]) by (unfold R; rewrite rows_snoc; reflexivity). reflexivity. }
  rewrite RE. unfold write_line. unfold set_data at 1. cbn [g_files mid].
  cbn [map]. rewrite <- (map_length (H (us ++ [u])) pre) at 1. rewrite nth_error_mid.
  cbn [h_open H]. unfold set_files, set_data, mid. cbn [g_cells g_names g_files g_keep g_data g_old g_dir].
  f_equal. f_equal.
  rewrite <- (map_length (H (us ++ [u])) pre) at 1. cbn [map]. rewrite set_nth_app, map_app, <- app_assoc. cbn [map app].
  f_equal. f_equal. unfold H. rewrite rows_snoc. reflexivity.
Qed.

Lemma write_gauges_mid us u : forall post pre, L = pre ++ post ->
  write_gauges num_dim qat auxat compute u (length pre) (map fst post) (mid us u pre post) = (mid us u L [], None).
Proof.
  induction post as [|cn post IH]; intros pre EL; cbn [map write_gauges].
  - rewrite app_nil_r in EL. subst pre. reflexivity.
  - rewrite write_gauge_mid by exact EL. specialize (IH (pre ++ [cn])). rewrite app_length in IH. cbn [length] in IH.
    replace (length pre + 1)%nat with (S (length pre)) in IH by lia. apply IH. rewrite <- app_assoc. exact EL.
Qed.
Lemma write_values us u : write_gauge_values num_dim qat auxat compute u (G us) = (G (us ++ [u]), None).
Proof.
  unfold write_gauge_values. change (g_cells (G us)) with (map fst L). rewrite <- (mid_start us u), <- mid_end.
  apply (write_gauges_mid us u L [] eq_refl).
Qed.

Variable E : Type.
Variable stepf : Q -> option Q -> solver E -> sol -> solver E * sol.
Variable acceptf : solver E -> bool.
Variable before : sol -> DQ * DX.

Lemma attempt_event tstart tend n (s : solver E) so s' so' ev e :
  attempt stepf acceptf before tstart tend n s so = (s', so', ev, e) -> ev_after ev = so'.
Proof.
  unfold attempt. destruct (stepf _ _ _ _) as [s1 so2]. destruct (acceptf s1).
  - intros [= <- <- <- _]. reflexivity.
  - cbn [dt_variable set_accept_step]. destruct (dt_variable s1); intros [= <- <- <- _]; reflexivity.
Qed.

Lemma gloop tstart tend : forall k n (s : solver E) so num tr us,
  gevolve_loop num_dim qat auxat compute stepf acceptf before k n tstart tend s so num (G us) =
  let '(s', so', num', tr', e) := evolve_loop stepf acceptf before k n tstart tend s so num tr in
  (s', so', num', G (us ++ accepted_solutions (rev (firstn (length tr' - length tr) tr'))), option_map SolverError e).
Proof.
  induction k as [|k IH]; intros n s so num tr us; cbn [gevolve_loop evolve_loop].
  - rewrite Nat.sub_diag. cbn [firstn rev]. unfold accepted_solutions. cbn [filter map]. rewrite app_nil_r. reflexivity.
  - destruct (attempt _ _ _ _ _ _ _ _) as [[[s1 so1] ev] e] eqn:Ea. pose proof (attempt_event _ _ _ _ _ _ _ _ _ Ea) as Eev.
    assert (W : (if ev_accepted ev then write_gauge_values num_dim qat auxat compute so1 (G us) else (G us, None)) =
      (G (us ++ accepted_solutions [ev]), None)).
    { unfold accepted_solutions. cbn [filter]. destruct (ev_accepted ev).
      - cbn [map]. rewrite Eev. apply write_values.
      - cbn [map]. rewrite app_nil_r. reflexivity. }
    rewrite W. assert (ONE : firstn (length (ev :: tr) - length tr) (ev :: tr) = [ev]).
    { cbn [length]. replace (S (length tr) - length tr)%nat with 1%nat by lia. reflexivity. }
    destruct e as [e|]; [rewrite ONE; reflexivity|].
    destruct (finished tend so1); [rewrite ONE; reflexivity|].
    rewrite (IH (n + 1)%Z s1 so1 _ (ev :: tr) (us ++ accepted_solutions [ev])).
    assert (PRE : forall k n s so num tr, exists l, let '(_, _, _, tr', _) := evolve_loop stepf acceptf before k n tstart tend s so num tr in tr' = l ++ tr).
    { clear. induction k as [|k IH]; intros n s so num tr; cbn [evolve_loop]; [exists []; reflexivity|].
      destruct (attempt _ _ _ _ _ _ _ _) as [[[s1 so1] ev] [e|]]; [exists [ev]; reflexivity|].
      destruct (finished tend so1); [exists [ev]; reflexivity|].
      destruct (IH (n + 1)%Z s1 so1 (if ev_accepted ev then (num + 1)%Z else num) (ev :: tr)) as [l Hl].
      exists (l ++ [ev]). destruct (evolve_loop _ _ _ _ _ _ _ _ _ _ _) as [[[[? ?] ?] tr'] ?]. rewrite Hl, <- app_assoc. reflexivity. }
    destruct (PRE k (n + 1)%Z s1 so1 (if ev_accepted ev then (num + 1)%Z else num) (ev :: tr)) as [l Hl].
    destruct (evolve_loop stepf acceptf before k (n + 1) tstart tend s1 so1 _ (ev :: tr)) as [[[[s2 so2] num2] tr2] e2].
    subst tr2. f_equal. f_equal. f_equal. rewrite !app_length. cbn [length].
    replace (length l + S (length tr) - S (length tr))%nat with (length l) by lia.
    replace (length l + S (length tr) - length tr)%nat with (length l + 1)%nat by lia.
    rewrite firstn_app, firstn_all, Nat.sub_diag. cbn [firstn]. rewrite app_nil_r.
    rewrite firstn_app, firstn_all2 by lia. replace (length l + 1 - length l)%nat with 1%nat by lia. cbn [firstn].
    rewrite rev_app_distr. unfold accepted_solutions. rewrite filter_app, map_app, <- app_assoc. reflexivity.
Qed.

Lemma gevolve (s : solver E) so tend us : let r := evolve_to_time stepf acceptf before s so tend in
  gevolve_to_time num_dim qat auxat compute stepf acceptf before s so tend (G us) =
  mkGResult (r_solver r) (r_sol r) (G (us ++ accepted_solutions (r_trace r))) (option_map SolverError (r_err r)).
Proof.
  unfold gevolve_to_time, evolve_to_time. destruct (evolve_setup (st so) tend s) as [s1 [e1|]].
  - cbn [r_solver r_sol r_trace r_err option_map]. unfold accepted_solutions. cbn [filter map]. rewrite app_nil_r. reflexivity.
  - rewrite (gloop (st so) tend (Z.to_nat (max_steps s1)) 0%Z s1 so 0%Z [] us).
    destruct (evolve_loop _ _ _ _ _ _ _ _ _ _ _) as [[[[s2 so2] num2] tr2] [e2|]];
      cbn [length option_map r_solver r_sol r_trace r_err]; rewrite Nat.sub_0_r, firstn_all; [reflexivity|].
    f_equal. destruct tend as [te|]; [|reflexivity]. destruct (_ && _)%bool; reflexivity.
Qed.

Lemma gcalls_spec calls : forall (s : solver E) so us, let r := history (evolve_to_time stepf acceptf before) s so calls in
  gcalls num_dim qat auxat compute stepf acceptf before s so calls (G us) =
  mkGResult (r_solver r) (r_sol r) (G (us ++ accepted_solutions (r_trace r))) (option_map SolverError (r_err r)).
Proof.
  induction calls as [|c calls IH]; intros s so us; cbn [gcalls history].
  - cbn [r_solver r_sol r_trace r_err option_map]. unfold accepted_solutions. cbn [filter map]. rewrite app_nil_r. reflexivity.
  - rewrite gevolve. cbn [gr_err gr_solver gr_sol gr_gauges]. destruct (r_err (evolve_to_time _ _ _ s so c)) as [e|] eqn:Ee; cbn [option_map].
    + rewrite Ee. reflexivity.
    + rewrite IH. cbn [r_solver r_sol r_trace r_err]. unfold accepted_solutions. rewrite filter_app, map_app, app_assoc. reflexivity.
Qed.

End G.

(** What the disk holds. *)
Lemma last_file_map {A} (f : A -> handle) (name : A -> Z) : (forall a, h_name (f a) = name a) -> forall l, NoDup (map name l) ->
  forall a, In a l -> last_file (name a) (map f l) = Some (f a).
Proof.
  intros Hn. induction l as [|b l IH]; intros ND a Ha; [contradiction|]. cbn [map last_file].
  apply NoDup_cons_iff in ND. destruct ND as [Hnot ND]. destruct Ha as [->|Ha].
  - destruct (last_file (name a) (map f l)) as [h|] eqn:El.
    + exfalso. apply Hnot. clear -El Hn. induction l as [|c l IH]; [discriminate|]. cbn [map last_file] in El.
      destruct (last_file (name a) (map f l)) as [h'|]; [right; apply IH; exact El|].
      destruct (Z.eqb_spec (h_name (f c)) (name a)) as [e|]; [left; rewrite <- e; symmetry; apply Hn|discriminate].
    + rewrite Hn, Z.eqb_refl. reflexivity.
  - rewrite (IH ND a Ha). reflexivity.
Qed.
