(** Names in order, and writing again what was read: proofs. *)
From Coq Require Import Ascii String.
From Verif Require Import Base FormatModel FormatSpec AsciiModel AsciiSpec FormatProofs FormatProofs2 AsciiProofs AsciiProofs2.
Open Scope Q_scope.

(** ** order of names *)
Lemma before_app p a b : before (p ++ a) (p ++ b) <-> before a b.
Proof.
  induction p as [|c p IH]; [reflexivity|]. cbn [app before]. split.
  - intros [H|[_ H]]; [lia|]. apply IH, H.
  - intros H. right. split; [reflexivity|]. apply IH, H.
Qed.
Lemma before_snoc a b c d : length a = length b ->
  before (a ++ [c]) (b ++ [d]) <-> before a b \/ (a = b /\ (N_of_ascii c < N_of_ascii d)%N).
Proof.
  revert b; induction a as [|x a IH]; intros [|y b] L; try discriminate L; cbn [app before].
  - split; [intros [H|[_ []]]; right; split; [reflexivity|exact H]|]. intros [[]|[_ H]]. left; exact H.
  - injection L as L. rewrite (IH b L). split.
    + intros [H|[-> [H|[-> H]]]]; [left; left; exact H|left; right; split; [reflexivity|exact H]|].
      right. split; [reflexivity|exact H].
    + intros [[H|[-> H]]|[E H]]; [left; exact H|right; split; [reflexivity|left; exact H]|].
      injection E as -> ->. right. split; [reflexivity|]. right. split; [reflexivity|exact H].
Qed.
Lemma digit_code d : (0 <= d < 10)%Z -> N_of_ascii (digit_char d) = Z.to_N (48 + d).
Proof. intros H. apply (digit_cases (fun d => N_of_ascii (digit_char d) = Z.to_N (48 + d)) d H); reflexivity. Qed.

Lemma digits_eq k m n : (0 <= m < 10 ^ Z.of_nat k)%Z -> (0 <= n < 10 ^ Z.of_nat k)%Z -> digits k m = digits k n -> m = n.
Proof.
  intros Hm Hn E. pose proof (digits_val_digits k m 0) as A. pose proof (digits_val_digits k n 0) as B.
  rewrite E in A. rewrite A in B. injection B as B. rewrite !Z.mod_small in B by assumption. lia.
Qed.
Lemma digits_before k m n : (0 <= m < 10 ^ Z.of_nat k)%Z -> (0 <= n < 10 ^ Z.of_nat k)%Z ->
  (before (digits k m) (digits k n) <-> (m < n)%Z).
Proof.
  revert m n; induction k as [|k IH]; intros m n Hm Hn.
  - change (10 ^ Z.of_nat 0)%Z with 1%Z in *. cbn [digits before]. split; [intros []|lia].
  - rewrite Nat2Z.inj_succ, Z.pow_succ_r in Hm, Hn by lia. cbn [digits].
    rewrite before_snoc by (rewrite !digits_length; reflexivity).
    assert (Hm' : (0 <= m / 10 < 10 ^ Z.of_nat k)%Z) by (split; [apply Z.div_pos; lia|apply Z.div_lt_upper_bound; lia]).
    assert (Hn' : (0 <= n / 10 < 10 ^ Z.of_nat k)%Z) by (split; [apply Z.div_pos; lia|apply Z.div_lt_upper_bound; lia]).
    rewrite (IH _ _ Hm' Hn'). rewrite !digit_code by apply mod10.
    pose proof (mod10 m). pose proof (mod10 n).
    pose proof (Z.div_mod m 10 ltac:(lia)). pose proof (Z.div_mod n 10 ltac:(lia)).
    split.
    + intros [L|[E L]]; [lia|]. apply digits_eq in E; [lia|assumption..].
    + intros L. destruct (Z.eq_dec (m / 10) (n / 10)) as [E|E]; [|left; lia].
      right. rewrite E. split; [reflexivity|lia].
Qed.
Lemma digits_lead j k m : (0 <= m < 10 ^ Z.of_nat k)%Z -> digits (j + k) m = repeat c_zero j ++ digits k m.
Proof.
  revert m; induction k as [|k IH]; intros m H.
  - change (10 ^ Z.of_nat 0)%Z with 1%Z in H. assert (m = 0%Z) by lia. subst m. rewrite Nat.add_0_r, app_nil_r.
    clear. induction j as [|j IH]; [reflexivity|]. cbn [digits]. change (0 / 10)%Z with 0%Z. rewrite IH.
    change (digit_char (0 mod 10)) with c_zero. clear. induction j as [|j IH]; [reflexivity|]. cbn [repeat app]. f_equal. exact IH.
  - rewrite Nat2Z.inj_succ, Z.pow_succ_r in H by lia. rewrite Nat.add_succ_r. cbn [digits]. rewrite IH.
    + apply app_assoc_reverse.
    + split; [apply Z.div_pos; lia|apply Z.div_lt_upper_bound; lia].
Qed.
Lemma zfill4_digits m : (0 <= m < 10000)%Z -> zfill4 m = digits 4 m.
Proof.
  intros H. unfold zfill4, pad. rewrite str_nat_length.
  pose proof (num_digits_le m 4 ltac:(change (10 ^ Z.of_nat 4)%Z with 10000%Z; lia) ltac:(lia)) as L.
  destruct (num_digits_spec m ltac:(lia)) as (B & _).
  unfold str_nat. rewrite <- digits_lead by lia. f_equal. lia.
Qed.
Lemma names_before path prefix kind m n : (0 <= m < 10000)%Z -> (0 <= n < 10000)%Z ->
  (before (file_name path prefix kind m) (file_name path prefix kind n) <-> (m < n)%Z).
Proof.
  intros Hm Hn. rewrite !file_name_stem. rewrite !before_app. rewrite !zfill4_digits by assumption.
  apply digits_before; change (10 ^ Z.of_nat 4)%Z with 10000%Z; assumption.
Qed.

(** ** writing again *)
Lemma fmt_reread x : fmt_18_8e (reread x) = fmt_18_8e x.
Proof. unfold fmt_18_8e. rewrite fmt_e_reread. reflexivity. Qed.
Lemma fmt_comp x y : x == y -> fmt_18_8e x = fmt_18_8e y.
Proof. intros H. unfold fmt_18_8e. rewrite (fmt_e_comp x y H). reflexivity. Qed.

Lemma write_loops_reread q q' nv rns : forall ix,
  (forall m jx, (0 <= m < Z.of_nat nv)%Z -> cell_of rns jx -> q' m (rev jx ++ ix) = reread (q m (rev jx ++ ix))) ->
  write_loops q' nv rns ix = write_loops q nv rns ix.
Proof.
  induction rns as [|n rns IH]; intros ix H; cbn [write_loops].
  - f_equal. f_equal. apply map_ext_in. intros m Hm. apply range_in in Hm.
    pose proof (H m [] Hm ltac:(constructor)) as K. cbn [rev app] in K. rewrite K. apply fmt_reread.
  - f_equal. apply map_ext_in. intros j Hj. apply range_in in Hj. f_equal. apply IH.
    intros m jx Hm Hjx.
    replace (rev jx ++ j :: ix) with (rev (j :: jx) ++ ix) by (cbn [rev]; rewrite <- app_assoc; reflexivity).
    apply H; [exact Hm|]. constructor; assumption.
Qed.

Lemma header_reread p : (length (p_dims p) <= 3)%nat -> Forall valid_dim (p_dims p) ->
  map d_name (p_dims p) = firstn (length (p_dims p)) xyz ->
  patch_header (reread_patch p) = patch_header p.
Proof.
  intros L V N. unfold patch_header. cbn [reread_patch p_index p_level p_dims].
  assert (K : forall names ds, (length ds <= length names)%nat -> Forall valid_dim ds ->
     map d_name ds = firstn (length ds) names ->
     map (fun d => int_line (d_n d) (lit "m" ++ d_name d)) (reread_dims names ds) = map (fun d => int_line (d_n d) (lit "m" ++ d_name d)) ds /\
     map (fun d => float_line (d_lower d) (d_name d ++ lit "low")) (reread_dims names ds) = map (fun d => float_line (d_lower d) (d_name d ++ lit "low")) ds /\
     map (fun d => float_line (d_delta d) (lit "d" ++ d_name d)) (reread_dims names ds) = map (fun d => float_line (d_delta d) (lit "d" ++ d_name d)) ds).
  { clear. intros names ds. revert names. induction ds as [|d ds IH]; intros names L V N; [destruct names; repeat split|].
    destruct names as [|n names]; [cbn [length] in L; lia|]. cbn [map length firstn] in N. injection N as N1 N2.
    inversion V as [|? ? (V1 & _) Vs]; subst.
    destruct (IH names ltac:(cbn [length] in L; lia) Vs N2) as (I1 & I2 & I3).
    cbn [reread_dims map]. rewrite I1, I2, I3. pose proof (reread_dim_delta (d_name d) d V1) as E.
    repeat split; apply f_equal2; try reflexivity.
    - unfold float_line. f_equal. apply fmt_reread.
    - unfold float_line. f_equal. rewrite (fmt_comp _ _ E). apply fmt_reread. }
  destruct (K xyz (p_dims p) ltac:(cbn [xyz length]; lia) V N) as (K1 & K2 & K3). rewrite K1, K2, K3. reflexivity.
Qed.

Lemma reread_array_rev nv ns q q' : reread_array nv ns q q' ->
  forall m jx, (0 <= m < Z.of_nat nv)%Z -> cell_of (rev ns) jx -> q' m (rev jx ++ []) = reread (q m (rev jx ++ [])).
Proof.
  intros H m jx Hm Hj. rewrite app_nil_r. apply H; [exact Hm|]. apply cell_of_rev in Hj. rewrite rev_involutive in Hj. exact Hj.
Qed.

Section Frame.
Context {D : Type}.
Variables (sol : @solution D) (t : Q) (num_eqn num_aux : nat) (data : option D).
Hypothesis W : writable sol t num_eqn num_aux data.
Let ss := so_states sol.
Hypothesis N : Forall (fun s => map d_name (p_dims (s_patch s)) = firstn (length (p_dims (s_patch s))) xyz) ss.

(** A state as the reader gives it, with or without its auxiliary array. *)
Definition reread_any (s s' : @state D) : Prop :=
  reread_state t num_eqn num_aux data s s' \/ reread_state_aux t num_eqn num_aux data s s'.

Lemma patch_again s : In s ss ->
  patch_header (reread_patch (s_patch s)) = patch_header (s_patch s) /\
  map d_n (p_dims (reread_patch (s_patch s))) = map d_n (p_dims (s_patch s)).
Proof.
  intros H. pose proof (st_len13 sol t num_eqn num_aux data W s H) as L. split.
  - apply header_reread; [lia|apply (st_valid sol t num_eqn num_aux data W s H)|].
    rewrite Forall_forall in N. apply N, H.
  - apply reread_dims_n. cbn [xyz length]. lia.
Qed.

Lemma q_text_again s s' : In s ss -> reread_any s s' -> q_part false s' = Ok (q_text s).
Proof.
  intros H R. pose proof (st_len13 sol t num_eqn num_aux data W s H) as L.
  destruct (patch_again s H) as (P1 & P2).
  assert (K : exists q', s_patch s' = reread_patch (s_patch s) /\ s_num_eqn s' = num_eqn /\ s_q s' = q' /\
     reread_array num_eqn (map d_n (p_dims (s_patch s))) (s_q s) q').
  { destruct R as [(q' & -> & Q')|(q' & a & a' & -> & Q' & _)]; exists q'; repeat split; exact Q'. }
  destruct K as (q' & K1 & K2 & K3 & Q').
  unfold q_part. rewrite K1, K2, K3. rewrite write_array_ok.
  - cbn [bind]. unfold q_text. rewrite P1, P2. rewrite (ws_num_eqn _ _ _ _ _ _ (st sol t num_eqn num_aux data W s H)).
    do 2 f_equal. apply write_loops_reread. apply reread_array_rev, Q'.
  - cbn [reread_patch p_dims]. rewrite reread_dims_length by (cbn [xyz length]; lia). exact L.
Qed.

Lemma a_text_again s s' : In s ss -> reread_state_aux t num_eqn num_aux data s s' -> a_part s' = Ok (a_text s).
Proof.
  intros H R. pose proof (st_len13 sol t num_eqn num_aux data W s H) as L.
  destruct (patch_again s H) as (P1 & P2).
  destruct R as (q' & a & a' & -> & Q' & Ea & A').
  unfold a_part. cbn [s_aux s_patch s_num_aux]. rewrite write_array_ok.
  - cbn [bind]. unfold a_text. rewrite P1, P2, Ea. rewrite (ws_num_aux _ _ _ _ _ _ (st sol t num_eqn num_aux data W s H)).
    do 2 f_equal. apply write_loops_reread. apply reread_array_rev, A'.
  - cbn [reread_patch p_dims]. rewrite reread_dims_length by (cbn [xyz length]; lia). exact L.
Qed.

Lemma states_again (f : @state D -> result text) g (P : @state D -> @state D -> Prop) l new : (forall s s', In s l -> P s s' -> f s' = Ok (g s)) ->
  Forall2 P l new -> all_states f new = Ok (concat (map g l)).
Proof.
  intros H F. induction F as [|s s' l new Hs _ IH]; [reflexivity|]. cbn [all_states map concat].
  rewrite (H s s' (or_introl eq_refl) Hs). cbn [bind].
  rewrite IH by (intros; apply H; [right; assumption|assumption]). reflexivity.
Qed.

Lemma t_file_again s0 s' new : In s0 ss -> reread_any s0 s' -> length new = length ss ->
  t_file s' (mkSolution new (so_num_dim sol)) = t_file s0 sol.
Proof.
  intros H R L. pose proof (st sol t num_eqn num_aux data W s0 H) as S.
  assert (K : s_t s' = reread t /\ s_num_eqn s' = num_eqn /\ s_num_aux s' = num_aux).
  { destruct R as [(q' & -> & _)|(q' & a & a' & -> & _)]; repeat split. }
  destruct K as (K1 & K2 & K3). unfold t_file. cbn [so_states so_num_dim]. rewrite K1, K2, K3, L.
  rewrite (ws_t _ _ _ _ _ _ S), (ws_num_eqn _ _ _ _ _ _ S), (ws_num_aux _ _ _ _ _ _ S).
  unfold float_line. rewrite fmt_reread. reflexivity.
Qed.
End Frame.
