(** The run method: proofs. *)
From Verif Require Import Base TimeModel ControllerModel ControllerSpec.

Section Run.
Context {DQ DX E P F : Type}.
Variable evolve : solver E -> sol DQ DX -> option Q -> result DQ DX E.
Variable setup : solver E -> solver E.
Variable valid : solver E -> sol DQ DX -> bool.
Variable c : controller DQ DX P F.
Notation world := (world DQ DX E P F).
Notation many := (many evolve).

Lemma many_app a b : forall s u, many s u (a ++ b) =
  match many s u a with
  | (s', u', None) => many s' u' b
  | (s', u', Some e) => (s', u', Some e)
  end.
Proof.
  induction a as [|x a IH]; intros s u; [reflexivity|]. cbn [app ControllerSpec.many].
  destruct (r_err (evolve s u x)); [reflexivity|]. apply IH.
Qed.

(** the calls made for one frame *)
Definition block (t : Q) : list (option Q) :=
  if (c_style c <? 3)%Z then [Some t] else repeat None (Z.to_nat (c_nstepout c)).

Lemma single_steps_many k : forall (w : world) b,
  single_steps evolve k w b =
  (let '(s, u, e) := many (w_solver w) (w_sol w) (repeat None k) in
   (set_solution s u w, match k with O => b | S _ => match e with Some _ => snd (fst (single_steps evolve k w b)) | None => true end end, e)).
Proof.
  induction k as [|k IH]; intros w b.
  - cbn. destruct w; reflexivity.
  - cbn [single_steps repeat ControllerSpec.many]. unfold evolve_world.
    destruct (r_err (evolve (w_solver w) (w_sol w) None)) as [e|] eqn:He; [reflexivity|].
    rewrite IH. cbn [set_solution w_solver w_sol].
    set (r := evolve (w_solver w) (w_sol w) None).
    destruct (many (r_solver r) (r_sol r) (repeat None k)) as [[s u] [e|]] eqn:Em.
    + cbn [fst snd]. destruct k; reflexivity.
    + destruct k; reflexivity.
Qed.

Lemma bound_indep k : forall (w : world) b, (0 < k)%nat -> snd (single_steps evolve k w b) = None ->
  snd (fst (single_steps evolve k w b)) = true.
Proof.
  induction k as [|k IH]; intros w b Hk; [lia|]. cbn [single_steps]. destruct (evolve_world evolve None w) as [w' [e|]]; [discriminate|].
  intros H. destruct k as [|k]; [reflexivity|]. apply IH; [lia|exact H].
Qed.

(** the effect of one pass of the loop, in terms of the solver and solution it reaches *)
Definition advance (s : solver E) (u : sol DQ DX) (frame : Z) (w : world) : world :=
  write_F c false (write_frame c (frame + 1) (c_aux_always c) (keep c (set_solution s u w))).

Lemma one_output_spec t frame (w : world) b :
  exists b', one_output evolve c t frame w b =
    (let '(s, u, e) := many (w_solver w) (w_sol w) (block t) in
     (match e with Some _ => set_solution s u w | None => advance s u frame w end, b', e)) /\
    (many_err (many (w_solver w) (w_sol w) (block t)) = None -> b' = (b || negb (match block t with [] => true | _ => false end))%bool).
Proof.
  unfold one_output, block. destruct (c_style c <? 3)%Z.
  - cbn [ControllerSpec.many]. unfold evolve_world. set (r := evolve (w_solver w) (w_sol w) (Some t)).
    destruct (r_err r) as [e|]; exists true; (split; [reflexivity|]); cbn [many_err snd]; [discriminate|].
    intros _. rewrite orb_true_r. reflexivity.
  - rewrite single_steps_many.
    destruct (many (w_solver w) (w_sol w) (repeat None (Z.to_nat (c_nstepout c)))) as [[s u] [e|]].
    + eexists. split; [reflexivity|]. cbn [many_err snd]. discriminate.
    + eexists. split; [reflexivity|]. intros _. destruct (Z.to_nat (c_nstepout c)); cbn [repeat negb]; [rewrite orb_false_r|rewrite orb_true_r]; reflexivity.
Qed.

(** the outputs of one pass *)
Lemma advance_sol s u frame (w : world) : w_sol (advance s u frame w) = u /\ w_solver (advance s u frame w) = s /\
  w_start (advance s u frame w) = w_start w /\
  w_frames (advance s u frame w) = w_frames w ++ (if c_keep c then [u] else []) /\
  w_set_up (advance s u frame w) = w_set_up w /\
  w_out (advance s u frame w) = w_out w ++ frame_files c (frame + 1) false u.
Proof.
  unfold advance, write_F, write_frame, frame_files, keep. destruct (c_F c), (c_output c), (c_p c), (c_keep c);
    cbn [put made_dir set_solution w_sol w_solver w_start w_frames w_out w_set_up app andb orb];
    rewrite ?orb_false_r, <- ?app_assoc, ?app_nil_r; repeat split; try reflexivity.
Qed.

(** the loop over the output times: [k] is the number of frames completed *)
Notation reached := (reached evolve).

Lemma outputs_spec ts : forall frame (w : world) b, exists k b',
  let blocks := map block ts in
  let '(s, u, e) := reached (w_solver w) (w_sol w) blocks (S k) in
  let w' := fst (fst (outputs evolve c ts frame w b)) in
  (k <= length ts)%nat /\
  outputs evolve c ts frame w b = (w', b', e) /\
  (forall j, (j <= k)%nat -> many_err (reached (w_solver w) (w_sol w) blocks j) = None) /\
  (match e with Some _ => (k < length ts)%nat | None => k = length ts end) /\
  w_sol w' = u /\ w_solver w' = s /\ w_start w' = w_start w /\ w_set_up w' = w_set_up w /\
  w_frames w' = w_frames w ++ (if c_keep c then map (fun j => many_sol (reached (w_solver w) (w_sol w) blocks j)) (seq 1 k) else []) /\
  w_out w' = w_out w ++ later_files c (frame + 1) (map (fun j => many_sol (reached (w_solver w) (w_sol w) blocks j)) (seq 1 k)) /\
  (e = None -> b' = (b || existsb (fun bl => negb (match bl with [] => true | _ => false end)) blocks)%bool).
Proof.
  induction ts as [|t ts IH]; intros frame w b.
  - exists 0%nat, b. cbn [map firstn concat ControllerSpec.many outputs fst snd length seq existsb].
    unfold ControllerSpec.reached. cbn [firstn concat ControllerSpec.many].
    split; [lia|]. split; [reflexivity|]. split.
    { intros j Hj. replace j with 0%nat by lia. reflexivity. }
    split; [reflexivity|]. repeat (split; [reflexivity|]).
    split; [destruct (c_keep c); rewrite app_nil_r; reflexivity|].
    split; [rewrite app_nil_r; reflexivity|]. intros _. rewrite orb_false_r. reflexivity.
  - destruct (one_output_spec t frame w b) as (b1 & E1 & B1).
    cbn [outputs map]. cbv zeta. unfold ControllerSpec.reached.
    assert (FIRST : forall j, many (w_solver w) (w_sol w) (concat (firstn (S j) (block t :: map block ts))) =
       match many (w_solver w) (w_sol w) (block t) with
       | (s', u', None) => many s' u' (concat (firstn j (map block ts)))
       | (s', u', Some e) => (s', u', Some e)
       end).
    { intros j. cbn [firstn concat]. apply many_app. }
    destruct (many (w_solver w) (w_sol w) (block t)) as [[s1 u1] e1] eqn:M1.
    destruct e1 as [x|].
    + exists 0%nat, b1. rewrite FIRST. rewrite E1. cbn [fst snd length seq map later_files].
      split; [lia|]. split; [reflexivity|]. split.
      { intros j Hj. replace j with 0%nat by lia. reflexivity. }
      split; [lia|]. repeat (split; [reflexivity|]).
      split; [destruct (c_keep c); rewrite app_nil_r; reflexivity|].
      split; [rewrite app_nil_r; reflexivity|]. discriminate.
    + destruct (advance_sol s1 u1 frame w) as (A1 & A2 & A3 & A4 & A5 & A6).
      destruct (IH (frame + 1)%Z (advance s1 u1 frame w) b1) as (k & b' & K).
      cbv zeta in K. unfold ControllerSpec.reached in K. rewrite A1, A2 in K.
      exists (S k), b'. rewrite FIRST. rewrite E1.
      destruct (many s1 u1 (concat (firstn (S k) (map block ts)))) as [[s u] e] eqn:M2.
      destruct K as (K1 & K2 & K3 & K4 & K5 & K6 & K7 & K8 & K9 & K10 & K11).
      set (w' := fst (fst (outputs evolve c ts (frame + 1) (advance s1 u1 frame w) b1))) in *.
      rewrite K2. cbn [fst snd length].
      split; [lia|]. split; [reflexivity|]. split.
      { intros [|j] Hj; [reflexivity|]. rewrite FIRST. apply K3. lia. }
      split; [destruct e; lia|]. split; [exact K5|]. split; [exact K6|]. split; [rewrite K7; exact A3|]. split; [rewrite K8; exact A5|].
      assert (MAP : map (fun j => many_sol (many (w_solver w) (w_sol w) (concat (firstn j (block t :: map block ts))))) (seq 1 (S k))
                    = u1 :: map (fun j => many_sol (many s1 u1 (concat (firstn j (map block ts))))) (seq 1 k)).
      { cbn [seq map]. f_equal; [rewrite FIRST; reflexivity|]. rewrite <- seq_shift, map_map. apply map_ext. intros j. rewrite FIRST. reflexivity. }
      split; [|split].
      * rewrite K9, A4, MAP. destruct (c_keep c); [rewrite <- app_assoc; reflexivity|rewrite app_nil_r; reflexivity].
      * rewrite K10, A6, MAP. cbn [later_files]. rewrite <- app_assoc. reflexivity.
      * intros He. rewrite (K11 He). rewrite B1 by reflexivity. cbn [existsb]. rewrite orb_assoc. reflexivity.
Qed.

Lemma linspace_spec a b n : (0 <= n)%Z -> exists x ts, linspace a b (n + 1) = Some (x :: ts) /\
  Z.of_nat (length ts) = n /\
  forall i y, nth_error ts i = Some y -> y == a + (b - a) * inject_Z (Z.of_nat i + 1) / inject_Z n.
Proof.
  intros Hn. unfold linspace. replace (n + 1 <? 0)%Z with false by (symmetry; apply Z.ltb_ge; lia).
  replace (Z.to_nat (n + 1)) with (S (Z.to_nat n)) by lia. cbn [seq map].
  eexists. eexists. split; [reflexivity|]. split; [rewrite !map_length, seq_length; lia|].
  intros i y H. rewrite map_map in H. rewrite nth_error_map in H.
  destruct (nth_error (seq 1 (Z.to_nat n)) i) as [j|] eqn:Ej; [|discriminate].
  assert (Hi : (i < Z.to_nat n)%nat) by (rewrite <- (seq_length (Z.to_nat n) 1); apply nth_error_Some; congruence).
  assert (Hj : j = (1 + i)%nat).
  { apply nth_error_nth with (d := 0%nat) in Ej. rewrite seq_nth in Ej by exact Hi. lia. }
  cbn [option_map] in H. injection H as <-. subst j.
  assert (N0 : 0 < inject_Z n) by (change 0 with (inject_Z 0); rewrite <- Zlt_Qlt; lia).
  replace (n + 1 - 1)%Z with n by lia. replace (Z.of_nat (1 + i)) with (Z.of_nat i + 1)%Z by lia.
  replace (negb (n + 1 =? 1)%Z) with true by (symmetry; apply negb_true_iff, Z.eqb_neq; lia). rewrite andb_true_r.
  destruct (Z.eqb_spec (Z.of_nat i + 1) n) as [E1|Hne].
  - rewrite E1. field. lra.
  - rewrite Qred_correct. field. lra.
Qed.

Definition not_refused (w : world) : Prop := c_output c = true -> w_dir w = true -> c_overwrite c = true.

Lemma output_times_spec (w : world) : acceptable c w ->
  exists x ts, output_times c w = inl (x :: ts) /\ requested c (w_start w) (st (w_sol w)) (map (block) ts).
Proof.
  intros [[(H1 & H2)|[(H1 & H2)|(H1 & H2)]] _]; unfold output_times, requested, block; rewrite H1.
  - change (1 =? 1)%Z with true. cbv iota. destruct (linspace_spec (st (w_sol w)) (c_tfinal c) (c_num c) H2) as (x & ts & E0 & L & K).
    rewrite E0. exists x, ts. split; [reflexivity|]. exists ts. split; [reflexivity|]. split; assumption.
  - change (2 =? 1)%Z with false. change (2 =? 2)%Z with true. cbv iota.
    destruct (c_times c) as [|x ts]; [congruence|]. exists x, ts. split; reflexivity.
  - change (3 =? 1)%Z with false. change (3 =? 2)%Z with false. change (3 =? 3)%Z with true. cbv iota zeta.
    replace (c_num c + 1 - w_start w <? 0)%Z with false by (symmetry; apply Z.ltb_ge; lia).
    replace (Z.to_nat (c_num c + 1 - w_start w)) with (S (Z.to_nat (c_num c - w_start w))) by lia. cbn [repeat].
    eexists. eexists. split; [reflexivity|]. change (3 <? 3)%Z with false. cbv iota.
    generalize (Z.to_nat (c_num c - w_start w)). intros n. induction n as [|n IH]; [reflexivity|]. cbn [repeat map]. f_equal. exact IH.
Qed.

Lemma first_frame frame aux_init (w : world) :
  let w' := write_F c true (write_frame c frame (c_aux_always c || aux_init) (keep c w)) in
  w_sol w' = w_sol w /\ w_solver w' = w_solver w /\ w_start w' = w_start w /\
  w_frames w' = w_frames w ++ (if c_keep c then [w_sol w] else []) /\ w_set_up w' = w_set_up w /\
  (aux_init = c_aux_init c -> w_out w' = w_out w ++ frame_files c frame true (w_sol w)).
Proof.
  unfold write_F, write_frame, frame_files, keep. destruct (c_F c), (c_output c), (c_p c), (c_keep c);
    cbn [put made_dir w_sol w_solver w_start w_frames w_out w_set_up app andb orb];
    rewrite <- ?app_assoc, ?app_nil_r; repeat split; intros; subst; reflexivity.
Qed.

(** the solver with which the run starts *)
Definition first_solver (w : world) : solver E := if w_set_up w then w_solver w else setup (w_solver w).

Lemma run_spec (w w' : world) o : acceptable c w -> valid (first_solver w) (w_sol w) = true ->
  run evolve setup valid c w = (w', o) ->
  exists blocks k,
    let go := reached (first_solver w) (w_sol w) blocks in
    requested c (w_start w) (st (w_sol w)) blocks /\ (k <= length blocks)%nat /\
    (forall j, (j <= k)%nat -> many_err (go j) = None) /\
    w_out w' = w_out w ++ run_files c (w_start w) (w_sol w) (map (fun j => many_sol (go j)) (seq 1 k)) /\
    w_frames w' = w_frames w ++ (if c_keep c then w_sol w :: map (fun j => many_sol (go j)) (seq 1 k) else []) /\
    w_solver w' = fst (fst (go (S k))) /\ w_sol w' = many_sol (go (S k)) /\ w_set_up w' = true /\
    match o with
    | None => k = length blocks /\ concat blocks <> [] /\ w_start w' = Z.of_nat (length (w_frames w'))
    | Some StatusUnbound => k = length blocks /\ concat blocks = [] /\ w_start w' = Z.of_nat (length (w_frames w'))
    | Some (EvolveError e) => (k < length blocks)%nat /\ many_err (go (S k)) = Some e /\ w_start w' = w_start w
    | _ => False
    end.
Proof.
  intros HA HV. unfold run.
  set (w1 := if w_set_up w then w else mkWorld (setup (w_solver w)) true (w_sol w) (w_start w) (w_frames w) (w_dir w) (w_out w)).
  assert (W1 : w_solver w1 = first_solver w /\ w_sol w1 = w_sol w /\ w_start w1 = w_start w /\ w_frames w1 = w_frames w /\
               w_dir w1 = w_dir w /\ w_out w1 = w_out w /\ w_set_up w1 = true).
  { unfold w1, first_solver. destruct (w_set_up w) eqn:U; repeat split. exact U. }
  destruct W1 as (W1 & W2 & W3 & W4 & W5 & W6 & W7).
  rewrite W1, W2, HV. cbn [negb].
  assert (HA1 : acceptable c w1) by (destruct HA as [A B]; split; [rewrite W3; exact A|rewrite W5; exact B]).
  destruct (output_times_spec w1 HA1) as (x & ts & E0 & R). rewrite E0.
  assert (NR : (c_output c && w_dir (keep c w1) && negb (c_overwrite c))%bool = false).
  { destruct HA1 as [_ B]. change (w_dir (keep c w1)) with (w_dir w1).
    destruct (c_output c), (w_dir w1), (c_overwrite c); try reflexivity. specialize (B eq_refl eq_refl). discriminate. }
  rewrite NR.
  pose proof (first_frame (w_start w) (c_aux_init c) w1) as FF. cbv zeta in FF.
  set (w3 := write_F c true (write_frame c (w_start w) (c_aux_always c || c_aux_init c) (keep c w1))) in *.
  destruct FF as (F1 & F2 & F3 & F4 & F5 & F6).
  destruct (outputs_spec ts (w_start w) w3 false) as (k & b' & K). cbv zeta in K.
  rewrite F1, F2, W1, W2 in K. rewrite W2, W3 in R. rewrite W1, W2 in *.
  intros HR. exists (map block ts), k. cbv zeta.
  destruct (reached (first_solver w) (w_sol w) (map block ts) (S k)) as [[s u] e] eqn:EK.
  destruct K as (K1 & K2 & K3 & K4 & K5 & K6 & K7 & K8 & K9 & K10 & K11).
  set (w4 := fst (fst (outputs evolve c ts (w_start w) w3 false))) in *.
  rewrite K2 in HR. rewrite map_length.
  assert (OUT : w_out w4 = w_out w ++ run_files c (w_start w) (w_sol w) (map (fun j => many_sol (reached (first_solver w) (w_sol w) (map block ts) j)) (seq 1 k))).
  { rewrite K10, F6, W6 by reflexivity. unfold run_files. rewrite <- app_assoc. reflexivity. }
  assert (FR : w_frames w4 = w_frames w ++ (if c_keep c then w_sol w :: map (fun j => many_sol (reached (first_solver w) (w_sol w) (map block ts) j)) (seq 1 k) else [])).
  { rewrite K9, F4, W4. destruct (c_keep c); [rewrite <- app_assoc; reflexivity|rewrite !app_nil_r; reflexivity]. }
  assert (EX : existsb (fun bl : list (option Q) => negb (match bl with [] => true | _ => false end)) (map block ts) = true <-> concat (map block ts) <> []).
  { clear. induction (map block ts) as [|bl l IH]; cbn [existsb concat]; [split; [discriminate|congruence]|].
    destruct bl as [|a bl]; cbn [negb orb app]; [exact IH|]. split; [discriminate|reflexivity]. }
  destruct e as [x'|].
  - injection HR as <- <-. cbn [many_err many_sol fst snd].
    split; [exact R|]. split; [lia|]. split; [exact K3|]. split; [exact OUT|]. split; [exact FR|].
    split; [exact K6|]. split; [exact K5|]. split; [rewrite K8, F5; exact W7|]. split; [exact K4|]. split; [reflexivity|]. rewrite K7, F3. exact W3.
  - rewrite (K11 eq_refl) in HR. cbn [orb] in HR.
    destruct (existsb _ (map block ts)) eqn:XB; injection HR as <- <-; cbn [set_start w_out w_frames w_solver w_sol w_start w_set_up many_sol many_err fst snd];
    (split; [exact R|]; split; [lia|]; split; [exact K3|]; split; [exact OUT|]; split; [exact FR|]; split; [exact K6|]; split; [exact K5|];
     split; [rewrite K8, F5; exact W7|]; split; [exact K4|]; split; [|reflexivity]).
    + apply EX. reflexivity.
    + destruct (concat (map block ts)) as [|a l]; [reflexivity|]. exfalso. assert (false = true) by (apply EX; discriminate). discriminate.
Qed.
End Run.
