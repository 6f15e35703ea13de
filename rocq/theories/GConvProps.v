(** Old gauge files: C155 (conversion) and C156 (comparison with the old file). *)
From Coq Require Import Ascii String.
From Verif Require Import Base FormatModel FormatSpec FormatProofs FormatProofs2 GFileModel GFileSpec GFileProofs GFileProps GConvModel GConvSpec GConvProofs.
Open Scope Q_scope.

(** ** C155: convert_gauges never returns: it writes the file of the first gauge in the set's order, correctly, leaves all other files as they
    were, and raises. *)
Theorem C155_first_gauge_partial :
  forall str_float bytes (decode64 decode32 : bytes -> list Q) nan set_order path old other es nf (fs : files text),
  old_file old es nf -> set_like set_order -> readable str_float nan ->
  exists id fs', In id (map e_id es) /\
    convert_gauges str_float nan set_order path old other fs = (fs', Raised (if (length path =? 2)%nat then other else ValueErr)) /\
    holds decode64 decode32 fs' id nf (of_gauge id es) /\ (forall n, n <> txt_name id -> fs' n = fs n).
Proof.
  intros sf bytes d64 d32 nan so path old other es nf fs O S R.
  destruct (rows_old _ _ _ O) as (rows & E & K & _ & L). unfold convert_gauges. rewrite E, L, (row_ids _ _ K).
  destruct (S (map e_id es)) as [_ SE]. destruct (so (map e_id es)) as [|id rest] eqn:EI.
  - exfalso. pose proof (o_many _ _ _ O) as M. destruct es as [|e es]; [cbn in M; lia|]. apply (SE (e_id e)). left. reflexivity.
  - assert (I : In id (map e_id es)) by (apply SE; left; reflexivity).
    destruct (old_gauge_complete nan old es nf rows id O K I) as (g & G & C). cbn [convert_loop]. rewrite G.
    destruct (written_holds sf bytes d64 d32 nan g id (of_gauge id es) nf fs R C) as (fs' & W & OT & H).
    rewrite W. exists id, fs'. split; [exact I|]. split; [reflexivity|]. split; [exact H|exact OT].
Qed.
Print Assumptions C155_first_gauge_partial.

(** An old file with two gauges: one of them is not converted, in whatever order. *)
Definition two_gauges : text :=
  lit "1 1 0.0 0.5" ++ [c_nl] ++ lit "2 1 0.0 -1.5" ++ [c_nl] ++ lit "1 1 0.25 3" ++ [c_nl].
Definition two_entries : list entry := [mkEntry 1 1 0.0 [0.5]; mkEntry 2 1 0.0 [-1.5]; mkEntry 1 1 0.25 [3]].
Lemma floats_inv : forall ws v, floats ws = Some v -> Forall2 (fun w x => parse_float w = Some x) ws v.
Proof.
  induction ws as [|w ws IH]; cbn [floats]; intros v H; [injection H as <-; constructor|].
  destruct (parse_float w) as [x|] eqn:E; [|discriminate]. destruct (floats ws) as [xs|]; [|discriminate]. injection H as <-.
  constructor; [exact E|apply IH; reflexivity].
Qed.
Lemma two_old : old_file two_gauges two_entries 1.
Proof.
  constructor; [|cbn; lia|repeat constructor|repeat constructor; discriminate].
  assert (E : forall l (e : entry) v, floats (words (uncomment l)) = Some v -> (exists a b, v = a :: b :: e_time e :: e_fields e /\ a == inject_Z (e_id e) /\ b == inject_Z (e_level e)) -> entry_line l e).
  { intros l e v F (a & b & -> & A & B). exists a, b. split; [exact A|]. split; [exact B|]. apply floats_inv, F. }
  change (lines two_gauges) with [lit "1 1 0.0 0.5" ++ [c_nl]; lit "2 1 0.0 -1.5" ++ [c_nl]; lit "1 1 0.25 3" ++ [c_nl]].
  repeat (constructor; [eapply E; [vm_compute; reflexivity|do 2 eexists; split; [reflexivity|split; reflexivity]]|]). constructor.
Qed.
Theorem C155_all_gauges_refuted :
  exists old es nf, old_file old es nf /\ forall set_order path other, set_like set_order ->
  exists id, In id (map e_id es) /\ fst (convert_gauges dec (1 # 4) set_order path old other no_txt) (txt_name id) = None /\
    exists e, snd (convert_gauges dec (1 # 4) set_order path old other no_txt) = Raised e.
Proof.
  exists two_gauges, two_entries, 1%nat. split; [exact two_old|]. intros so path other S.
  destruct (C155_first_gauge_partial dec unit (fun _ => []) (fun _ => []) (1 # 4) so path two_gauges other two_entries 1 no_txt two_old S (proj1 quarter_readable))
    as (id & fs' & I & E & _ & O). rewrite E. cbn [fst snd].
  assert (D : txt_name 1 <> txt_name 2) by (vm_compute; discriminate).
  cbn in I. destruct I as [<-|[<-|[<-|[]]]].
  - exists 2%Z. split; [cbn; auto|]. split; [apply (O (txt_name 2)); congruence|eexists; reflexivity].
  - exists 1%Z. split; [cbn; auto|]. split; [apply (O (txt_name 1)); exact D|eexists; reflexivity].
  - exists 2%Z. split; [cbn; auto|]. split; [apply (O (txt_name 2)); congruence|eexists; reflexivity].
Qed.
Print Assumptions C155_all_gauges_refuted.
(** An old file with one observation is refused by both programs (numpy reads it as a one-dimensional array); nothing is written. *)
Theorem C155_one_observation str_float bytes (decode64 decode32 : bytes -> list Q) nan set_order path old other e l (fs : files text) :
  lines old = [l] -> entry_line l e ->
  convert_gauges str_float nan set_order path old other fs = (fs, Raised IndexErr) /\
  forall bin id rtol atol, compare_old_gauges bytes decode64 decode32 old fs bin id rtol atol = inr IndexErr.
Proof.
  intros L H. assert (R : old_rows old = inr IndexErr).
  { destruct (load_old (length (e_fields e)) [l] [e]) as (rows & R & K & _); [repeat constructor; assumption|repeat constructor|].
    unfold old_rows. rewrite L, R. inversion K as [|v e' rows' es' Hv K' E1 E2]; subst. inversion K'. reflexivity. }
  unfold convert_gauges, compare_old_gauges. rewrite R. split; reflexivity.
Qed.
Print Assumptions C155_one_observation.
Example C155_one_case : exists old l e, lines old = [l] /\ entry_line l e.
Proof.
  exists (lit "1 1 0.0 0.5" ++ [c_nl]), (lit "1 1 0.0 0.5" ++ [c_nl]), (mkEntry 1 1 0.0 [0.5]). split; [reflexivity|].
  exists 1, 1. split; [reflexivity|]. split; [reflexivity|]. apply floats_inv. vm_compute. reflexivity.
Qed.
(** a case that meets the hypotheses of C155_first_gauge_partial *)
Example C155_example : old_file two_gauges two_entries 1 /\ set_like (nodup Z.eq_dec) /\ readable dec (1 # 4) /\
  of_gauge 1 two_entries = [mkEntry 1 1 0.0 [0.5]; mkEntry 1 1 0.25 [3]].
Proof.
  split; [exact two_old|]. split; [intro l; split; [apply NoDup_nodup|intro x; apply nodup_In]|]. split; [exact (proj1 quarter_readable)|reflexivity].
Qed.

Lemma forall2_impl {A} (P R : A -> A -> Prop) (a b : list A) : (forall x y, P x y -> R x y) -> Forall2 P a b -> Forall2 R a b.
Proof. intros H. induction 1; constructor; auto. Qed.
Lemma warned_no_data bytes d64 d32 txt bin id g : read bytes d64 d32 txt bin id new_gauge = (g, Warned) -> g_q g = None.
Proof.
  assert (ST : forall m n rows g0 g1, store m n rows g0 <> (g1, Warned)).
  { intros m n rows g0 g1. unfold store, particle_path. destruct n as [|[|nf]]; try discriminate. destruct m as [z|]; [|discriminate].
    destruct (z =? Z.of_nat nf)%Z; [|discriminate]. cbn [g_location g_type]. destruct (g_location g0) as [[|? [|? [|? ?]]]|]; try discriminate.
    destruct (g_type g0); [destruct (map _ rows)|destruct (3 <=? nf)%nat]; discriminate. }
  unfold read. destruct (txt (txt_name id)) as [s|]; [|discriminate]. destruct (lines s) as [|l ls]; [discriminate|].
  destruct (read_head l) as [h|[[h|] e]]; try discriminate. destruct (read_format ls) as [ty fmt]. destruct (h_id h =? id)%Z; cbn [negb]; [|discriminate].
  destruct fmt.
  - destruct (load_rows (l :: ls)); [|discriminate]. intro H. exfalso. exact (ST _ _ _ _ _ H).
  - destruct (bin (bin_name id)); [|intro H; injection H as <-; reflexivity]. destruct (h_neqn h) as [m|]; [|discriminate].
    destruct (m <? 0)%Z; [discriminate|]. destruct (_ =? 0)%nat; [|discriminate]. intro H. exfalso. exact (ST _ _ _ _ _ H).
  - destruct (bin (bin_name id)); [|intro H; injection H as <-; reflexivity]. destruct (h_neqn h) as [m|]; [|discriminate].
    destruct (m <? 0)%Z; [discriminate|]. destruct (_ =? 0)%nat; [|discriminate]. intro H. exfalso. exact (ST _ _ _ _ _ H).
Qed.

(** ** C156: compare_old_gauges *)
Lemma all2_spec {A} (f : A -> A -> bool) a b : all2 f a b = true <-> Forall2 (fun x y => f x y = true) a b.
Proof.
  revert b. induction a as [|x a IH]; intros [|y b]; cbn [all2]; split; intro H; try discriminate; try constructor; try (inversion H; fail).
  - apply andb_true_iff in H. apply H.
  - apply IH. apply andb_true_iff in H. apply H.
  - inversion H as [|? ? ? ? H1 H2]; subst. rewrite H1. apply IH, H2.
Qed.
(** the tolerance of the default arguments *)
Definition tol : Q := 1 # 100000000000000.
Lemma accurate_close x y : Qabs x < 100 -> accurate 15 x y -> close 0 tol x y = true.
Proof.
  intros B A. unfold close. apply qleb_le. rewrite Qmult_0_l, Qplus_0_r. rewrite <- Qabs_Qminus.
  destruct A as [[E1 E2]|(e & H1 & H2 & H3)].
  - rewrite E1, E2. discriminate.
  - assert (L : (e < 2)%Z). { apply pow10_lt_inv. rewrite <- ten_to_pow10. eapply Qle_lt_trans; [exact H1|exact B]. }
    eapply Qle_trans; [exact H3|]. assert (P : ten_to (e - Z.of_nat 15) <= ten_to (-14)).
    { rewrite !ten_to_pow10. apply pow10_le. lia. }
    change (ten_to (-14)) with (1 # 100000000000000) in P. unfold tol. lra.
Qed.
(** Accepted: the values agree with those of the old file to the tolerance. *)
Theorem C156_accepted :
  forall bytes (decode64 decode32 : bytes -> list Q) old es nf (txt : files text) (bin : files bytes) id rtol atol,
  old_file old es nf -> compare_old_gauges bytes decode64 decode32 old txt bin id rtol atol = inl true ->
  exists g obs, read bytes decode64 decode32 txt bin id new_gauge = (g, Done) /\ g_q g = Some (nf, obs) /\
  Forall2 (Forall2 (fun a b => Qabs (a - b) <= atol + rtol * Qabs b)) (map e_fields (of_gauge id es)) obs.
Proof.
  intros bytes d64 d32 old es nf txt bin id rtol atol O H.
  destruct (rows_old _ _ _ O) as (rows & E & K & _ & L). unfold compare_old_gauges in H. rewrite E in H.
  destruct (read bytes d64 d32 txt bin id new_gauge) as [g o] eqn:R. exists g.
  destruct (g_q g) as [[nf' obs]|] eqn:G; [|destruct o; discriminate].
  rewrite L in H. destruct (rows_parts _ _ (rows_of_gauge id rows es K)) as (_ & _ & C). rewrite C in H.
  destruct o; [| |discriminate].
  - destruct ((length (map e_fields (of_gauge id es)) =? length obs)%nat && (S (S (S nf)) - 3 =? nf')%nat)%bool eqn:B; [|discriminate].
    apply andb_true_iff in B. destruct B as [_ B]. apply Nat.eqb_eq in B. exists obs. split; [reflexivity|]. split; [rewrite <- B; f_equal; f_equal; lia|].
    assert (H' : all2 (all2 (close rtol atol)) (map e_fields (of_gauge id es)) obs = true) by congruence.
    apply all2_spec in H'. eapply forall2_impl; [|exact H']. intros a b F. apply all2_spec in F. eapply forall2_impl; [|exact F].
    intros x y C'. apply qleb_le, C'.
  - exfalso. pose proof (warned_no_data _ _ _ _ _ _ _ R) as W. congruence.
Qed.
Print Assumptions C156_accepted.
(** A correct conversion is accepted, if all values are smaller than 100. *)
Theorem C156_small_values_partial :
  forall bytes (decode64 decode32 : bytes -> list Q) old es nf (txt : files text) (bin : files bytes) id,
  old_file old es nf -> holds decode64 decode32 txt id nf (of_gauge id es) -> Forall (fun e => Forall (fun x => Qabs x < 100) (e_fields e)) es ->
  compare_old_gauges bytes decode64 decode32 old txt bin id 0 tol = inl true.
Proof.
  intros bytes d64 d32 old es nf txt bin id O H SM.
  destruct (rows_old _ _ _ O) as (rows & E & K & _ & L). unfold compare_old_gauges. rewrite E, L.
  destruct (H bin new_gauge) as (g & ts & obs & R & _ & _ & _ & _ & Q & F). rewrite R, Q.
  destruct (rows_parts _ _ (rows_of_gauge id rows es K)) as (_ & _ & C). rewrite C.
  replace (S (S (S nf)) - 3)%nat with nf by lia. rewrite Nat.eqb_refl.
  assert (LE : length (map e_fields (of_gauge id es)) = length obs) by (clear -F; induction F; cbn [length]; congruence).
  rewrite LE, Nat.eqb_refl. cbn [andb]. f_equal. apply all2_spec.
  assert (SG : Forall (fun v => Forall (fun x => Qabs x < 100) v) (map e_fields (of_gauge id es))).
  { apply Forall_forall. intros v Hv. apply in_map_iff in Hv. destruct Hv as (e & <- & I). apply filter_In in I. rewrite Forall_forall in SM. exact (SM e (proj1 I)). }
  clear -F SG. induction F as [|v w l m HV _ IH]; [constructor|]. constructor; [|apply IH; exact (Forall_inv_tail SG)].
  apply all2_spec. pose proof (Forall_inv SG) as B. cbv beta in B. clear -HV B. induction HV as [|x y v w A _ IH]; [constructor|].
  constructor; [apply accurate_close; [exact (Forall_inv B)|exact A]|apply IH; exact (Forall_inv_tail B)].
Qed.
Print Assumptions C156_small_values_partial.
(** The next number after 100 in double precision is written with sixteen digits, read back as 100 and not accepted. *)
Definition after_100 : text := lit "1 1 0.0 1.0000000000000001421e+02" ++ [c_nl] ++ lit "1 1 0.25 3" ++ [c_nl].
Definition entries_100 : list entry := [mkEntry 1 1 0.0 [100.00000000000001421]; mkEntry 1 1 0.25 [3]].
Lemma old_100 : old_file after_100 entries_100 1.
Proof.
  constructor; [|cbn; lia|repeat constructor|repeat constructor; discriminate].
  assert (E : forall l (e : entry) v, floats (words (uncomment l)) = Some v -> (exists a b, v = a :: b :: e_time e :: e_fields e /\ a == inject_Z (e_id e) /\ b == inject_Z (e_level e)) -> entry_line l e).
  { intros l e v F (a & b & -> & A & B). exists a, b. split; [exact A|]. split; [exact B|]. apply floats_inv, F. }
  change (lines after_100) with [lit "1 1 0.0 1.0000000000000001421e+02" ++ [c_nl]; lit "1 1 0.25 3" ++ [c_nl]].
  repeat (constructor; [eapply E; [vm_compute; reflexivity|do 2 eexists; split; [reflexivity|split; reflexivity]]|]). constructor.
Qed.
Theorem C156_any_values_refuted :
  exists old es nf fs' id, old_file old es nf /\ holds (fun _ : unit => []) (fun _ : unit => []) fs' id nf (of_gauge id es) /\
  fst (convert_gauges dec (1 # 4) (nodup Z.eq_dec) (lit "fort.gauge") old Missing no_txt) = fs' /\
  compare_old_gauges unit (fun _ => []) (fun _ => []) old fs' no_bin id 0 tol = inl false.
Proof.
  assert (SL : set_like (nodup Z.eq_dec)) by (intro l; split; [apply NoDup_nodup|intro x; apply nodup_In]).
  destruct (C155_first_gauge_partial dec unit (fun _ => []) (fun _ => []) (1 # 4) (nodup Z.eq_dec) (lit "fort.gauge") after_100 Missing entries_100 1 no_txt old_100 SL (proj1 quarter_readable))
    as (id & fs' & I & E & H & _).
  exists after_100, entries_100, 1%nat, fs', id. split; [exact old_100|]. split; [exact H|]. split; [rewrite E; reflexivity|].
  assert (id = 1%Z) as -> by (cbn in I; destruct I as [<-|[<-|[]]]; reflexivity).
  replace fs' with (fst (convert_gauges dec (1 # 4) (nodup Z.eq_dec) (lit "fort.gauge") after_100 Missing no_txt)) by (rewrite E; reflexivity).
  vm_compute. reflexivity.
Qed.
Print Assumptions C156_any_values_refuted.
(** a case that meets the hypotheses of C156_small_values_partial *)
Example C156_example :
  let fs := fst (convert_gauges dec (1 # 4) (nodup Z.eq_dec) (lit "fort.gauge") two_gauges Missing no_txt) in
  Forall (fun e => Forall (fun x => Qabs x < 100) (e_fields e)) two_entries /\
  (compare_old_gauges unit (fun _ => []) (fun _ => []) two_gauges fs no_bin 1 0 tol = inl true \/
   compare_old_gauges unit (fun _ => []) (fun _ => []) two_gauges fs no_bin 2 0 tol = inl true).
Proof. cbv zeta. split; [repeat constructor|]. vm_compute. tauto. Qed.
