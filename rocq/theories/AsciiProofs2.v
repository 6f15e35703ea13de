(** Whole frames: proofs. *)
From Coq Require Import Ascii String.
From Verif Require Import Base FormatModel FormatSpec AsciiModel AsciiSpec FormatProofs FormatProofs2 AsciiProofs.
Open Scope Q_scope.

(** ** file names *)
Lemma join_app a b x : b <> [] -> join a (b ++ x) = join a b ++ x.
Proof.
  intros H. destruct b as [|c b]; [congruence|]. cbn [app join].
  destruct (Ascii.eqb c c_slash); [reflexivity|]. destruct (rev a); [reflexivity|].
  destruct (Ascii.eqb a0 c_slash); rewrite <- app_assoc; reflexivity.
Qed.

(** the part of a name before the kind of file *)
Definition stem (path prefix : text) : text := join path (prefix ++ lit ".").

Lemma prefix_dot (prefix : text) : prefix ++ lit "." <> [].
Proof. intros E. apply app_eq_nil in E. destruct E as [_ E]. discriminate. Qed.

Lemma read_name_stem path prefix kind frame :
  read_name path prefix kind frame = stem path prefix ++ lit kind ++ zfill4 frame.
Proof.
  unfold read_name, stem. rewrite app_assoc, join_app by apply prefix_dot. rewrite <- app_assoc. reflexivity.
Qed.
Lemma file_name_stem path prefix kind frame :
  file_name path prefix kind frame = stem path prefix ++ lit kind ++ zfill4 frame.
Proof.
  unfold file_name. destruct (String.eqb kind "pkl"); [exact (read_name_stem path prefix kind frame)|].
  unfold stem. rewrite app_assoc, join_app by apply prefix_dot. reflexivity.
Qed.

Lemma zfill4_inj m n : (0 <= m)%Z -> (0 <= n)%Z -> zfill4 m = zfill4 n -> m = n.
Proof.
  intros Hm Hn E. pose proof (pad_zero_val 4 m Hm) as A. pose proof (pad_zero_val 4 n Hn) as B.
  unfold zfill4 in E. rewrite E in A. congruence.
Qed.

Definition kinds : list string := ["t"; "q"; "a"; "pkl"]%string.

Lemma file_name_inj path prefix k1 k2 f1 f2 : In k1 kinds -> In k2 kinds -> (0 <= f1)%Z -> (0 <= f2)%Z ->
  file_name path prefix k1 f1 = file_name path prefix k2 f2 -> k1 = k2 /\ f1 = f2.
Proof.
  intros H1 H2 P1 P2. rewrite !file_name_stem. intros E. apply app_inv_head in E.
  unfold kinds in *. cbn [In] in H1, H2.
  assert (Hin : forall f, ~ In (ascii_of_N 107) (zfill4 f)).
  { intros f. apply all_digits_not; [apply all_digits_pad|reflexivity]. }
  destruct H1 as [<- |[<- |[<- |[<- |[]]]]]; destruct H2 as [<- |[<- |[<- |[<- |[]]]]];
    try (split; [reflexivity|]); try (apply app_inv_head in E; apply zfill4_inj; assumption);
    cbn [lit list_ascii_of_string app] in E; exfalso; discriminate.
Qed.

Lemma text_eqb_refl a : text_eqb a a = true.
Proof. unfold text_eqb. destruct (list_eq_dec ascii_dec a a); congruence. Qed.
Lemma text_eqb_neq a b : a <> b -> text_eqb a b = false.
Proof. unfold text_eqb. destruct (list_eq_dec ascii_dec a b); congruence. Qed.

Section Files.
Context {D : Type}.
Notation state := (@state D).
Notation solution := (@solution D).
Notation files := (@files D).

Lemma store_same (fs : files) n c : store fs n c n = Some c.
Proof. unfold store. rewrite text_eqb_refl. reflexivity. Qed.
Lemma store_other (fs : files) n c m : m <> n -> store fs n c m = fs m.
Proof. intros H. unfold store. rewrite text_eqb_neq by exact H. reflexivity. Qed.

(** ** the parts of the files *)
Definition q_text (s : state) : text :=
  patch_header (s_patch s) ++ write_loops (s_q s) (s_num_eqn s) (rev (map d_n (p_dims (s_patch s)))) [].
Definition a_text (s : state) : text :=
  patch_header (s_patch s) ++
  match s_aux s with Some a => write_loops a (s_num_aux s) (rev (map d_n (p_dims (s_patch s)))) [] | None => [] end.

Lemma all_states_ok (f : state -> result text) g ss : (forall s, In s ss -> f s = Ok (g s)) ->
  all_states f ss = Ok (concat (map g ss)).
Proof.
  induction ss as [|s ss IH]; intros H; [reflexivity|]. cbn [all_states map concat].
  rewrite (H s (or_introl eq_refl)). cbn [bind]. rewrite IH by (intros; apply H; right; assumption). reflexivity.
Qed.

(** what the reader makes of a state, before the auxiliary arrays *)
Definition reread_state (t : Q) (num_eqn num_aux : nat) (data : option D) (s s' : state) : Prop :=
  exists q', s' = mkState (reread_patch (s_patch s)) (reread t) num_eqn q' 0 None num_aux None data /\
    reread_array num_eqn (map d_n (p_dims (s_patch s))) (s_q s) q'.

Lemma reread_dims_n names ds : (length ds <= length names)%nat -> map d_n (reread_dims names ds) = map d_n ds.
Proof.
  revert names; induction ds as [|d ds IH]; intros names H; [destruct names; reflexivity|].
  destruct names as [|n names]; [cbn [length] in H; lia|]. cbn [reread_dims map]. f_equal. apply IH. cbn [length] in H. lia.
Qed.
Lemma reread_dims_names names ds : (length ds <= length names)%nat -> map d_name (reread_dims names ds) = firstn (length ds) names.
Proof.
  revert names; induction ds as [|d ds IH]; intros names H; [destruct names; reflexivity|].
  destruct names as [|n names]; [cbn [length] in H; lia|]. cbn [reread_dims map length firstn]. f_equal. apply IH. cbn [length] in H. lia.
Qed.
Lemma reread_dims_length names ds : (length ds <= length names)%nat -> length (reread_dims names ds) = length ds.
Proof. intros H. rewrite <- (map_length d_n), reread_dims_n by exact H. apply map_length. Qed.

Lemma reread_dim_delta name d : (0 < d_n d)%Z -> d_delta (reread_dim name d) == reread (d_delta d).
Proof.
  intros H. unfold d_delta at 1, reread_dim. cbn [d_lower d_upper d_n].
  assert (0 < inject_Z (d_n d)) by (change 0 with (inject_Z 0); rewrite <- Zlt_Qlt; exact H). field. lra.
Qed.
End Files.

Section Frame.
Context {D : Type}.
Variables (sol : @solution D) (t : Q) (num_eqn num_aux : nat) (data : option D).
Hypothesis W : writable sol t num_eqn num_aux data.
Let ss := so_states sol.

Lemma nd_range : (1 <= so_num_dim sol <= 3)%nat.
Proof. apply W. Qed.

Lemma st (s : state) : In s ss -> writable_state sol t num_eqn num_aux data s.
Proof. intros H. pose proof (w_states _ _ _ _ _ W) as F. rewrite Forall_forall in F. apply F, H. Qed.
Lemma st_len (s : @state D) : In s ss -> length (p_dims (s_patch s)) = so_num_dim sol.
Proof. intros H. apply (wp_dims _ _ (ws_patch _ _ _ _ _ _ (st s H))). Qed.
Lemma st_len13 (s : @state D) : In s ss -> (1 <= length (p_dims (s_patch s)) <= 3)%nat.
Proof. intros H. rewrite (st_len s H). apply nd_range. Qed.
Lemma st_valid (s : @state D) : In s ss -> Forall valid_dim (p_dims (s_patch s)).
Proof. intros H. exact (wp_valid _ _ (ws_patch _ _ _ _ _ _ (st s H))). Qed.

Lemma q_states : all_states (q_part false) ss = Ok (concat (map q_text ss)).
Proof.
  apply all_states_ok. intros s H. unfold q_part. rewrite write_array_ok by (apply st_len13, H). reflexivity.
Qed.
Lemma a_states : (0 < num_aux)%nat -> all_states a_part ss = Ok (concat (map a_text ss)).
Proof.
  intros Hn. apply all_states_ok. intros s H. destruct (ws_aux _ _ _ _ _ _ (st s H) Hn) as (a & Ea & _).
  unfold a_part, a_text. rewrite Ea. rewrite write_array_ok by (apply st_len13, H). reflexivity.
Qed.

(** what fort.t says *)
Definition t_values : t_data :=
  mkT (reread t) (Z.of_nat num_eqn) (Z.of_nat (length ss)) (Z.of_nat num_aux) (Z.of_nat (so_num_dim sol)) 0 (Some (lit "ascii")).

Lemma head_state : exists s0 r, ss = s0 :: r.
Proof. pose proof (w_some _ _ _ _ _ W) as H. unfold ss. destruct (so_states sol) as [|s0 r]; [congruence|]. eauto. Qed.

Lemma read_t_ok (fs : @files D) path prefix frame s0 : In s0 ss ->
  fs (read_name path prefix "t" frame) = Some (TextFile (t_file s0 sol)) ->
  read_t fs path prefix frame = Ok t_values.
Proof.
  intros H0 H. unfold read_t, open_text. rewrite H. cbn [bind]. unfold t_file.
  pose proof (st s0 H0) as S0.
  rewrite (ws_t _ _ _ _ _ _ S0), (ws_num_eqn _ _ _ _ _ _ S0), (ws_num_aux _ _ _ _ _ _ S0).
  rewrite read_float_line by (apply no_nl_lit; reflexivity). cbn [bind].
  rewrite read_int_line by (apply no_nl_lit; reflexivity). cbn [bind].
  rewrite read_int_line by (apply no_nl_lit; reflexivity). cbn [bind].
  rewrite read_int_line by (apply no_nl_lit; reflexivity). cbn [bind].
  rewrite read_int_line by (apply no_nl_lit; reflexivity). cbn [bind].
  unfold int_line, fmt_5i.
  rewrite data_line_padded by (try lia; try apply no_space_str_int; try apply str_int_nonempty; apply no_nl_lit; reflexivity).
  cbv beta iota. rewrite parse_str_int. reflexivity.
Qed.

Lemma read_state_ok s rest : In s ss ->
  exists s', read_state t_values data (lines (q_text s ++ rest)) = Ok (s', lines rest) /\
    reread_state t num_eqn num_aux data s s'.
Proof.
  intros H. unfold read_state, t_values. cbn [f_num_dim f_num_eqn f_num_aux f_t]. rewrite !Nat2Z.id.
  unfold q_text. rewrite <- app_assoc.
  pose proof nd_range as N. pose proof (st s H) as S.
  rewrite read_header by (try apply st_valid; try apply st_len; try assumption; lia). cbn [bind].
  replace (Z.of_nat num_eqn <? 0)%Z with false by (symmetry; apply Z.ltb_ge; lia).
  rewrite (ws_num_eqn _ _ _ _ _ _ S).
  destruct (read_array_ok (s_patch s) (reread_patch (s_patch s)) (s_q s) num_eqn rest) as (q' & E & Q').
  - apply st_len13, H.
  - apply W.
  - apply reread_dims_n. pose proof (st_len13 s H). cbn [xyz length]. lia.
  - apply S.
  - rewrite E. cbn [bind]. eexists. split; [reflexivity|]. exists q'. split; [reflexivity|exact Q'].
Qed.

Lemma read_states_ok : exists new, read_many (read_state t_values data) (length ss) (lines (concat (map q_text ss))) = Ok (new, []) /\
  Forall2 (reread_state t num_eqn num_aux data) ss new.
Proof.
  destruct (read_many_exists (read_state t_values data) q_text (reread_state t num_eqn num_aux data) ss []) as (new & E & F).
  - intros s r H. apply read_state_ok, H.
  - rewrite app_nil_r in E. exists new. split; [exact E|exact F].
Qed.

(** the auxiliary arrays *)
Lemma close_to_refl a : close_to a a = true.
Proof.
  unfold close_to. apply qleb_le. setoid_replace (a - a) with 0 by ring. change (Qabs 0) with 0.
  pose proof (Qabs_nonneg a). unfold abs_tol, rel_tol. assert (0 <= (1 # 10 ^ 15) * Qabs a).
  { apply Qmul_nonneg; [discriminate|assumption]. } assert (0 <= 1 # 10 ^ 8) by discriminate. lra.
Qed.
Lemma same_dims_refl ds : same_dims ds ds = Ok tt.
Proof.
  induction ds as [|d ds IH]; [reflexivity|]. cbn [same_dims]. rewrite Z.eqb_refl, !close_to_refl. exact IH.
Qed.

(** the state with its auxiliary array *)
Definition reread_state_aux (s s' : @state D) : Prop :=
  exists q' a a', s' = mkState (reread_patch (s_patch s)) (reread t) num_eqn q' 0 None num_aux (Some a') data /\
    reread_array num_eqn (map d_n (p_dims (s_patch s))) (s_q s) q' /\
    s_aux s = Some a /\ reread_array num_aux (map d_n (p_dims (s_patch s))) a a'.

Lemma read_aux_ok l : (0 < num_aux)%nat -> (forall s, In s l -> In s ss) -> forall new,
  Forall2 (reread_state t num_eqn num_aux data) l new ->
  exists new', read_aux_states (so_num_dim sol) num_aux new (lines (concat (map a_text l))) = Ok new' /\
    Forall2 reread_state_aux l new'.
Proof.
  intros Hn. induction l as [|s l IH]; intros Hin new F.
  - inversion F; subst. exists []. split; [reflexivity|constructor].
  - inversion F as [|? s' ? new1 (q' & -> & Q') F1]; subst.
    assert (H : In s ss) by (apply Hin; left; reflexivity).
    pose proof nd_range as N. pose proof (st s H) as S.
    destruct (ws_aux _ _ _ _ _ _ S Hn) as (a & Ea & Ha).
    cbn [map concat read_aux_states]. unfold a_text at 1. rewrite Ea. rewrite <- !app_assoc.
    rewrite read_header by (try apply st_valid; try apply st_len; try assumption; lia). cbn [bind s_patch].
    rewrite Z.eqb_refl. cbn [negb]. rewrite same_dims_refl. cbn [bind].
    rewrite (ws_num_aux _ _ _ _ _ _ S).
    destruct (read_array_ok (s_patch s) (reread_patch (s_patch s)) a num_aux (concat (map a_text l))) as (a' & E & A').
    + apply st_len13, H.
    + exact Hn.
    + apply reread_dims_n. pose proof (st_len13 s H). cbn [xyz length]. lia.
    + exact Ha.
    + rewrite E. cbn [bind].
      destruct (IH (fun s0 K => Hin s0 (or_intror K)) new1 F1) as (new' & E' & F').
      rewrite E'. cbn [bind s_t s_num_eqn s_q s_mp s_p s_num_aux s_data]. eexists. split; [reflexivity|].
      constructor; [|exact F']. exists q', a, a'. repeat split; assumption.
Qed.

(** ** what these mean *)
Lemma same_patch_reread p nd : length (p_dims p) = nd -> (nd <= 3)%nat -> Forall valid_dim (p_dims p) ->
  same_patch p (reread_patch p).
Proof.
  intros L H V. assert (L3 : (length (p_dims p) <= length xyz)%nat) by (cbn [xyz length]; lia).
  constructor; cbn [reread_patch p_index p_level p_dims]; try reflexivity.
  - apply reread_dims_n, L3.
  - apply reread_dims_names, L3.
  - clear L H. revert L3. generalize xyz as names. induction V as [|d ds (V1 & V2 & V3) _ IH]; intros names L.
    + destruct names; constructor.
    + destruct names as [|n names]; [cbn [length] in L; lia|]. cbn [reread_dims].
      constructor; [|apply IH; cbn [length] in L; lia]. split; [apply reread_accurate|].
      pose proof (reread_dim_delta n d V1) as E. pose proof (reread_accurate (d_delta d)) as A.
      destruct A as [[A1 A2]|(e & A1 & A2 & A3)]; [left; split; [exact A1|rewrite E; exact A2]|].
      right. exists e. repeat split; [exact A1|exact A2|]. rewrite E. exact A3.
Qed.

Lemma same_array_reread nv ns q q' : reread_array nv ns q q' -> same_array nv ns q q'.
Proof. intros H m ix Hm Hix. rewrite (H m ix Hm Hix). apply reread_accurate. Qed.

Lemma read_back_plain s s' : In s ss -> reread_state t num_eqn num_aux data s s' -> state_read_back false s s'.
Proof.
  intros H (q' & -> & Q'). pose proof (st s H) as S. pose proof nd_range.
  constructor; cbn [s_patch s_t s_num_eqn s_q s_num_aux s_aux s_data].
  - apply (same_patch_reread _ (so_num_dim sol)); [apply st_len, H|lia|apply st_valid, H].
  - rewrite (ws_t _ _ _ _ _ _ S). apply reread_accurate.
  - symmetry. apply S.
  - rewrite (ws_num_eqn _ _ _ _ _ _ S). apply same_array_reread, Q'.
  - symmetry. apply S.
  - reflexivity.
  - symmetry. apply S.
Qed.
Lemma read_back_aux s s' : In s ss -> reread_state_aux s s' -> state_read_back true s s'.
Proof.
  intros H (q' & a & a' & -> & Q' & Ea & A'). pose proof (st s H) as S. pose proof nd_range.
  constructor; cbn [s_patch s_t s_num_eqn s_q s_num_aux s_aux s_data].
  - apply (same_patch_reread _ (so_num_dim sol)); [apply st_len, H|lia|apply st_valid, H].
  - rewrite (ws_t _ _ _ _ _ _ S). apply reread_accurate.
  - symmetry. apply S.
  - rewrite (ws_num_eqn _ _ _ _ _ _ S). apply same_array_reread, Q'.
  - symmetry. apply S.
  - exists a, a'. repeat split; [exact Ea|]. rewrite (ws_num_aux _ _ _ _ _ _ S). apply same_array_reread, A'.
  - symmetry. apply S.
Qed.
Lemma Forall2_sub {A B} (P R : A -> B -> Prop) l l' : (forall a b, In a l -> P a b -> R a b) -> Forall2 P l l' -> Forall2 R l l'.
Proof.
  intros H F. induction F as [|a b l l' Hab _ IH]; [constructor|].
  constructor; [apply H; [left; reflexivity|exact Hab]|]. apply IH. intros; apply H; [right; assumption|assumption].
Qed.

(** ** reading a frame from files with the right contents *)
Lemma read_ok (fs : @files D) path prefix frame read_aux s0 : In s0 ss ->
  fs (read_name path prefix "pkl" frame) = Some (PickleFile data) ->
  fs (read_name path prefix "t" frame) = Some (TextFile (t_file s0 sol)) ->
  fs (read_name path prefix "q" frame) = Some (TextFile (concat (map q_text ss))) ->
  (* without auxiliary arrays *)
  (((0 <? num_aux)%nat && read_aux)%bool = false \/
   (fs (read_name path prefix "a" frame) = None /\ fs (read_name path prefix "a" 0) = None) ->
   exists new, read fs path prefix frame read_aux [] = Ok (mkSolution new (so_num_dim sol)) /\
     Forall2 (reread_state t num_eqn num_aux data) ss new) /\
  (* with auxiliary arrays *)
  ((0 < num_aux)%nat -> read_aux = true ->
   (fs (read_name path prefix "a" frame) = Some (TextFile (concat (map a_text ss))) \/
    (fs (read_name path prefix "a" frame) = None /\
     fs (read_name path prefix "a" 0) = Some (TextFile (concat (map a_text ss))))) ->
   exists new, read fs path prefix frame read_aux [] = Ok (mkSolution new (so_num_dim sol)) /\
     Forall2 reread_state_aux ss new).
Proof.
  intros H0 Hp Ht Hq.
  destruct read_states_ok as (new & E & F).
  assert (Hread : exists n0 r, new = n0 :: r /\ s_num_aux n0 = num_aux /\ length (p_dims (s_patch n0)) = so_num_dim sol).
  { destruct head_state as (h0 & r0 & Es). rewrite Es in F. inversion F as [|? n0 ? r Hn0 _]; subst.
    exists n0, r. destruct Hn0 as (q' & -> & _). cbn [s_num_aux s_patch reread_patch p_dims].
    repeat split. rewrite reread_dims_length.
    - apply st_len. rewrite Es. left. reflexivity.
    - pose proof (st_len13 h0 ltac:(rewrite Es; left; reflexivity)). cbn [xyz length]. lia. }
  destruct Hread as (n0 & r & En & Hna & Hnd).
  assert (R : read fs path prefix frame read_aux [] =
     if ((0 <? num_aux)%nat && read_aux)%bool then
        let found := match fs (read_name path prefix "a" frame) with
                     | Some _ => Some (read_name path prefix "a" frame)
                     | None => match fs (read_name path prefix "a" 0) with
                               | Some _ => Some (read_name path prefix "a" 0)
                               | None => None
                               end
                     end in
        match found with
        | None => Ok (mkSolution new (so_num_dim sol))
        | Some name =>
            h <- open_text fs name ;;
            l <- read_aux_states (so_num_dim sol) num_aux new h ;;
            Ok (mkSolution l (so_num_dim sol))
        end
      else Ok (mkSolution new (so_num_dim sol))).
  { unfold read. rewrite Hp. cbn [bind]. rewrite (read_t_ok fs path prefix frame s0 H0 Ht). cbn [bind].
    unfold open_text at 1. rewrite Hq. cbn [bind].
    replace (Z.to_nat (f_nstates t_values)) with (length ss) by (unfold t_values; cbn [f_nstates]; lia).
    rewrite E. cbn [bind]. rewrite En. cbn [app]. rewrite Hna, Hnd.
    unfold t_values. cbn [f_num_dim f_num_aux]. rewrite !Nat2Z.id. reflexivity. }
  split.
  - intros [C|[C1 C2]]; exists new; split; try exact F; rewrite R.
    + rewrite C. reflexivity.
    + rewrite C1, C2. destruct ((0 <? num_aux)%nat && read_aux)%bool; reflexivity.
  - intros Hn -> C.
    destruct (read_aux_ok ss Hn (fun s K => K) new F) as (new' & E' & F').
    exists new'. split; [|exact F']. rewrite R.
    replace ((0 <? num_aux)%nat && true)%bool with true by (symmetry; apply andb_true_iff; split; [apply Nat.ltb_lt; exact Hn|reflexivity]).
    destruct C as [C|[C1 C2]].
    + rewrite C. cbv zeta iota. unfold open_text. rewrite C. cbn [bind]. rewrite E'. reflexivity.
    + rewrite C1, C2. cbv zeta iota. unfold open_text. rewrite C2. cbn [bind]. rewrite E'. reflexivity.
Qed.

(** ** what write stores *)
Lemma write_ok (fs : @files D) path prefix frame write_aux : (0 <= frame)%Z ->
  exists fs' s0, In s0 ss /\ write fs path prefix frame write_aux false sol = Ok fs' /\
  fs' (file_name path prefix "t" frame) = Some (TextFile (t_file s0 sol)) /\
  fs' (file_name path prefix "q" frame) = Some (TextFile (concat (map q_text ss))) /\
  fs' (file_name path prefix "pkl" frame) = Some (PickleFile data) /\
  (if ((0 <? num_aux)%nat && write_aux)%bool
   then fs' (file_name path prefix "a" frame) = Some (TextFile (concat (map a_text ss)))
   else fs' (file_name path prefix "a" frame) = fs (file_name path prefix "a" frame)) /\
  (forall name, ~ In name (map (fun k => file_name path prefix k frame) kinds) -> fs' name = fs name).
Proof.
  intros Hf. destruct head_state as (s0 & r & Es).
  assert (H0 : In s0 ss) by (rewrite Es; left; reflexivity).
  pose proof (st s0 H0) as S0.
  assert (NE : forall k1 k2, In k1 kinds -> In k2 kinds -> k1 <> k2 ->
     file_name path prefix k1 frame <> file_name path prefix k2 frame).
  { intros k1 k2 K1 K2 Hne E. apply file_name_inj in E; [tauto|assumption..]. }
  assert (Ht : In "t"%string kinds) by (left; reflexivity).
  assert (Hq : In "q"%string kinds) by (right; left; reflexivity).
  assert (Ha : In "a"%string kinds) by (right; right; left; reflexivity).
  assert (Hp : In "pkl"%string kinds) by (right; right; right; left; reflexivity).
  unfold write. fold ss. rewrite Es. cbv iota. rewrite <- Es. rewrite q_states. cbn [bind].
  rewrite (ws_num_aux _ _ _ _ _ _ S0), (ws_data _ _ _ _ _ _ S0).
  destruct ((0 <? num_aux)%nat && write_aux)%bool eqn:C.
  - apply andb_true_iff in C. destruct C as [C1 C2]. apply Nat.ltb_lt in C1.
    rewrite (a_states C1). cbn [bind]. eexists. exists s0. split; [exact H0|]. split; [reflexivity|].
    repeat split.
    + rewrite !store_other by (apply NE; try assumption; discriminate). apply store_same.
    + rewrite !store_other by (apply NE; try assumption; discriminate). apply store_same.
    + apply store_same.
    + rewrite store_other by (apply NE; try assumption; discriminate). apply store_same.
    + intros name Hn.
      assert (NI : forall k, In k kinds -> name <> file_name path prefix k frame).
      { intros k Hk E. apply Hn. apply in_map_iff. exists k. split; [symmetry; exact E|exact Hk]. }
      rewrite !store_other by (apply NI; assumption). reflexivity.
  - cbn [bind]. eexists. exists s0. split; [exact H0|]. split; [reflexivity|].
    repeat split.
    + rewrite !store_other by (apply NE; try assumption; discriminate). apply store_same.
    + rewrite !store_other by (apply NE; try assumption; discriminate). apply store_same.
    + apply store_same.
    + rewrite !store_other by (apply NE; try assumption; discriminate). reflexivity.
    + intros name Hn.
      assert (NI : forall k, In k kinds -> name <> file_name path prefix k frame).
      { intros k Hk E. apply Hn. apply in_map_iff. exists k. split; [symmetry; exact E|exact Hk]. }
      rewrite !store_other by (apply NI; assumption). reflexivity.
Qed.
End Frame.
