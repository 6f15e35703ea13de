(** Reading back headers and arrays: proofs. *)
From Coq Require Import Ascii String.
From Verif Require Import Base FormatModel FormatSpec AsciiModel AsciiSpec FormatProofs FormatProofs2.
Open Scope Q_scope.

(** ** lines of headers *)
Lemma blanks_cons k (s : text) : (0 < k)%nat -> match repeat c_space k ++ s with c :: _ => is_space c = true | [] => True end.
Proof. intros H. destruct k; [lia|]. reflexivity. Qed.

Lemma no_nl_blanks k : no_nl (repeat c_space k).
Proof. intros K. apply repeat_spec in K. discriminate. Qed.

Lemma line_split w k label rest : no_nl w -> no_nl label ->
  lines ((w ++ repeat c_space k ++ label ++ [c_nl]) ++ rest)
  = (w ++ repeat c_space k ++ label ++ [c_nl]) :: lines rest.
Proof.
  intros Hw Hl.
  replace ((w ++ repeat c_space k ++ label ++ [c_nl]) ++ rest) with ((w ++ repeat c_space k ++ label) ++ c_nl :: rest)
    by (rewrite <- !app_assoc; reflexivity).
  rewrite lines_line; [f_equal; rewrite <- !app_assoc; reflexivity|].
  apply no_nl_app; [exact Hw|]. apply no_nl_app; [apply no_nl_blanks|exact Hl].
Qed.

Lemma data_line_padded wd w k label rest : (0 < k)%nat -> no_space w -> w <> [] -> no_nl label ->
  data_line (lines ((pad c_space wd w ++ repeat c_space k ++ label ++ [c_nl]) ++ rest)) = Ok (w, lines rest).
Proof.
  intros Hk Hw Hn Hl. rewrite line_split by (try apply no_nl_pad, no_space_no_nl; assumption).
  cbn [data_line]. rewrite words_pad by (try assumption; apply blanks_cons, Hk). reflexivity.
Qed.

Lemma read_int_line m label rest : no_nl label ->
  read_int (lines (int_line m label ++ rest)) = Ok (m, lines rest).
Proof.
  intros H. unfold read_int, int_line, fmt_5i.
  rewrite data_line_padded by (try lia; try apply no_space_str_int; try apply str_int_nonempty; assumption).
  cbn [bind]. rewrite parse_str_int. reflexivity.
Qed.
Lemma read_float_line x label rest : no_nl label ->
  read_float (lines (float_line x label ++ rest)) = Ok (reread x, lines rest).
Proof.
  intros H. unfold read_float, float_line, fmt_18_8e.
  rewrite data_line_padded by (try lia; try apply no_space_fmt_e; try apply fmt_e_nonempty; assumption).
  cbn [bind]. rewrite parse_fmt_e. reflexivity.
Qed.

(** ** several items *)
Lemma read_many_exists {A B} (rd : handle -> result (B * handle)) (wr : A -> text) (P : A -> B -> Prop) l rest :
  (forall a r, In a l -> exists b, rd (lines (wr a ++ r)) = Ok (b, lines r) /\ P a b) ->
  exists bs, read_many rd (length l) (lines (concat (map wr l) ++ rest)) = Ok (bs, lines rest) /\ Forall2 P l bs.
Proof.
  induction l as [|a l IH]; intros H.
  - exists []. split; [reflexivity|constructor].
  - destruct (H a (concat (map wr l) ++ rest) (or_introl eq_refl)) as (b & E & Hb).
    destruct IH as (bs & E2 & Hbs); [intros x r Hx; apply H; right; exact Hx|].
    exists (b :: bs). split; [|constructor; assumption].
    cbn [length read_many map concat]. rewrite <- app_assoc, E. cbn [bind]. rewrite E2. reflexivity.
Qed.
Lemma read_many_map {A B} (rd : handle -> result (B * handle)) (wr : A -> text) (g : A -> B) l rest :
  (forall a r, In a l -> rd (lines (wr a ++ r)) = Ok (g a, lines r)) ->
  read_many rd (length l) (lines (concat (map wr l) ++ rest)) = Ok (map g l, lines rest).
Proof.
  intros H. destruct (read_many_exists rd wr (fun a b => b = g a) l rest) as (bs & E & F).
  - intros a r Ha. exists (g a). split; [apply H, Ha|reflexivity].
  - rewrite E. do 2 f_equal. clear E. induction F; [reflexivity|]. cbn [map]. rewrite IHF; [|intros; apply H; right; assumption]. congruence.
Qed.

(** ** patch headers *)
Definition reread_dim (name : text) (d : dimension) : dimension :=
  mkDimn (reread (d_lower d)) (reread (d_lower d) + inject_Z (d_n d) * reread (d_delta d)) (d_n d) name.
Fixpoint reread_dims (names : list text) (ds : list dimension) : list dimension :=
  match names, ds with
  | n :: names', d :: ds' => reread_dim n d :: reread_dims names' ds'
  | _, _ => []
  end.
Definition xyz : list text := [lit "x"; lit "y"; lit "z"].
Definition reread_patch (p : patch) : patch :=
  mkPatch (p_index p) (p_level p) (reread_dims xyz (p_dims p)).

Definition valid_dim (d : dimension) : Prop := (0 < d_n d)%Z /\ d_lower d < d_upper d /\ ~ In c_nl (d_name d).

Lemma delta_pos d : valid_dim d -> 0 < d_delta d.
Proof.
  intros (H1 & H2 & _). unfold d_delta. apply Qdiv_pos; [lra|].
  change 0 with (inject_Z 0). rewrite <- Zlt_Qlt. exact H1.
Qed.

Lemma make_dims_ok names ds : (length ds <= length names)%nat -> Forall valid_dim ds ->
  make_dims names (map d_n ds) (map (fun d => reread (d_lower d)) ds) (map (fun d => reread (d_delta d)) ds)
  = Ok (reread_dims names ds).
Proof.
  revert names; induction ds as [|d ds IH]; intros names H V.
  - destruct names; reflexivity.
  - destruct names as [|n names]; [cbn [length] in H; lia|]. inversion V as [|? ? Vd Vds]; subst.
    cbn [map make_dims reread_dims]. unfold new_dimension.
    pose proof (delta_pos d Vd) as P. apply (proj1 (reread_sign (d_delta d))) in P.
    destruct Vd as (V1 & _).
    assert (K : ((0 <? d_n d)%Z && qltb (reread (d_lower d)) (reread (d_lower d) + inject_Z (d_n d) * reread (d_delta d)))%bool = true).
    { apply andb_true_iff. split; [apply Z.ltb_lt; exact V1|]. apply qltb_lt.
      assert (0 < inject_Z (d_n d)) by (change 0 with (inject_Z 0); rewrite <- Zlt_Qlt; exact V1). nra. }
    rewrite K. cbn [bind]. rewrite IH by (try assumption; cbn [length] in H; lia). reflexivity.
Qed.

Lemma no_nl_lit_app s t : forallb (fun c => negb (Ascii.eqb c c_nl)) (lit s) = true -> no_nl t -> no_nl (lit s ++ t).
Proof.
  intros H Ht. apply no_nl_app; [|exact Ht]. intros K. rewrite forallb_forall in H. specialize (H _ K).
  rewrite Ascii.eqb_refl in H. discriminate.
Qed.
Lemma no_nl_lit s : forallb (fun c => negb (Ascii.eqb c c_nl)) (lit s) = true -> no_nl (lit s).
Proof. intros H. rewrite <- (app_nil_r (lit s)). apply no_nl_lit_app; [exact H|intros []]. Qed.

Lemma read_header p rest nd : length (p_dims p) = nd -> (nd <= 3)%nat -> Forall valid_dim (p_dims p) ->
  read_patch_header nd (lines (patch_header p ++ rest)) = Ok (reread_patch p, lines rest).
Proof.
  intros Hn H3 V. unfold read_patch_header, patch_header. rewrite <- !app_assoc.
  rewrite read_int_line by (apply no_nl_lit; reflexivity). cbn [bind].
  rewrite read_int_line by (apply no_nl_lit; reflexivity). cbn [bind].
  rewrite Forall_forall in V.
  rewrite <- Hn.
  rewrite (read_many_map read_int _ d_n).
  2:{ intros d r Hd. apply read_int_line. apply no_nl_lit_app; [reflexivity|]. apply V, Hd. }
  cbn [bind].
  rewrite (read_many_map read_float _ (fun d => reread (d_lower d))).
  2:{ intros d r Hd. apply read_float_line. apply no_nl_app; [apply V, Hd|apply no_nl_lit; reflexivity]. }
  cbn [bind].
  rewrite (read_many_map read_float _ (fun d => reread (d_delta d))).
  2:{ intros d r Hd. apply read_float_line. apply no_nl_lit_app; [reflexivity|]. apply V, Hd. }
  cbn [bind].
  rewrite make_dims_ok; [|cbn [length]; lia|apply Forall_forall; exact V]. reflexivity.
Qed.

(** ** arrays *)
Lemma range_length n : length (range n) = Z.to_nat n.
Proof. unfold range. rewrite map_length, seq_length. reflexivity. Qed.
Lemma range_in n j : In j (range n) <-> (0 <= j < n)%Z.
Proof.
  unfold range. rewrite in_map_iff. split.
  - intros (k & <- & H). apply in_seq in H. lia.
  - intros H. exists (Z.to_nat j). split; [lia|]. apply in_seq. lia.
Qed.
Lemma range_nth n i d : (0 <= i < n)%Z -> nth (Z.to_nat i) (range n) d = i.
Proof.
  intros H. unfold range. rewrite (nth_indep _ d (Z.of_nat 0)) by (rewrite map_length, seq_length; lia).
  rewrite map_nth, seq_nth by lia. lia.
Qed.
Lemma Forall2_nth_range {B} (P : Z -> B -> Prop) n bs i d : (0 <= i < n)%Z -> Forall2 P (range n) bs ->
  P i (nth (Z.to_nat i) bs d).
Proof.
  intros H F. rewrite <- (range_nth n i 0%Z H) at 1.
  assert (L : (Z.to_nat i < length (range n))%nat) by (rewrite range_length; lia).
  revert L. generalize (Z.to_nat i) as k. clear H.
  induction F as [|a b l bs' Hab _ IH]; intros k L; [cbn [length] in L; lia|].
  destruct k as [|k]; [exact Hab|]. cbn [nth]. apply IH. cbn [length] in L. lia.
Qed.

Lemma floats_fmt xs : floats (map fmt_e xs) = Some (map reread xs).
Proof.
  induction xs as [|x xs IH]; [reflexivity|]. cbn [map floats]. rewrite parse_fmt_e, IH. reflexivity.
Qed.

Lemma read_cell_row xs rest : Forall double_range xs -> xs <> [] ->
  read_cell (length xs) (lines ((concat (map fmt_18_8e xs) ++ [c_nl]) ++ rest)) = Ok (map reread xs, lines rest).
Proof.
  intros H N. unfold read_cell.
  rewrite <- app_assoc. cbn [app]. rewrite lines_line by apply no_nl_row.
  assert (C : cell_words (length xs) [] ((concat (map fmt_18_8e xs) ++ [c_nl]) :: lines rest) = Ok (map fmt_e xs, lines rest)).
  { destruct xs as [|x xs]; [congruence|]. set (n := length (x :: xs)).
    cbn [cell_words]. replace (n <=? length (@nil text))%nat with false by (symmetry; apply Nat.leb_gt; unfold n; cbn [length]; lia).
    rewrite words_row by exact H. cbn [app].
    assert (L : (n <=? length (map fmt_e (x :: xs)))%nat = true) by (apply Nat.leb_le; rewrite map_length; reflexivity).
    destruct (lines rest); cbn [cell_words]; rewrite L; reflexivity. }
  rewrite C. cbn [bind]. rewrite <- (map_length fmt_e xs), firstn_all, floats_fmt. reflexivity.
Qed.

Lemma read_loops_ok q nv : (1 <= nv)%nat -> forall rns ix rest,
  (forall m jx, (0 <= m < Z.of_nat nv)%Z -> cell_of rns jx -> double_range (q m (rev jx ++ ix))) ->
  exists f, read_loops nv rns (lines (write_loops q nv rns ix ++ rest)) = Ok (f, lines rest) /\
    forall jx, cell_of rns jx -> f jx = map (fun m => reread (q m (rev jx ++ ix))) (range (Z.of_nat nv)).
Proof.
  intros Hnv. induction rns as [|n rns IH]; intros ix rest H.
  - cbn [read_loops write_loops].
    pose proof (read_cell_row (map (fun m => q m ix) (range (Z.of_nat nv))) rest) as R.
    rewrite map_length, range_length, Nat2Z.id, map_map in R. rewrite R.
    + eexists. split; [reflexivity|]. intros jx Hj. inversion Hj; subst. cbn [rev app]. rewrite map_map. reflexivity.
    + apply Forall_forall. intros x Hx. apply in_map_iff in Hx. destruct Hx as (m & <- & Hm). apply range_in in Hm.
      apply (H m [] Hm). constructor.
    + intros E. apply (f_equal (@length Q)) in E. rewrite map_length, range_length in E. cbn [length] in E. lia.
  - cbn [read_loops write_loops].
    destruct (read_many_exists
        (fun h0 => '(b, h1) <- read_loops nv rns h0 ;; Ok (b, match rns with [] => h1 | _ => tl h1 end))
        (fun j => write_loops q nv rns (j :: ix) ++ match rns with [] => [] | _ => [c_nl] end)
        (fun j b => forall jx, cell_of rns jx ->
            b jx = map (fun m => reread (q m (rev jx ++ j :: ix))) (range (Z.of_nat nv)))
        (range n) rest) as (bs & E & F).
    + intros j r Hj. apply range_in in Hj.
      destruct (IH (j :: ix) (match rns with [] => [] | _ => [c_nl] end ++ r)) as (f & Ef & Hf).
      { intros m jx Hm Hx. replace (rev jx ++ j :: ix) with (rev (j :: jx) ++ ix) by (cbn [rev]; rewrite <- app_assoc; reflexivity).
        apply H; [exact Hm|]. constructor; assumption. }
      exists f. split; [|exact Hf]. rewrite <- app_assoc, Ef. cbn [bind]. destruct rns; reflexivity.
    + rewrite range_length in E.
      exists (fun ix => match ix with
                    | i :: ix' => nth (Z.to_nat i) bs (fun _ => []) ix'
                    | [] => []
                    end).
      split; [exact (f_equal (fun r => '(blocks, h') <- r ;;
         Ok ((fun ix : list Z => match ix with
                    | i :: ix' => nth (Z.to_nat i) blocks (fun _ => []) ix'
                    | [] => []
                    end), h')) E)|].
      intros jx Hj. inversion Hj as [|i n' jx' rns' Hi Hjx]; subst. cbv beta iota.
      pose proof (Forall2_nth_range _ n bs i (fun _ => []) Hi F jx' Hjx) as K. cbv beta in K. rewrite K.
      cbn [rev]. rewrite <- app_assoc. reflexivity.
Qed.

Lemma cell_of_rev ns ix : cell_of ns ix -> cell_of (rev ns) (rev ix).
Proof.
  unfold cell_of. intros H. induction H as [|i n ix ns Hi _ IH]; [constructor|].
  cbn [rev]. apply Forall2_app; [exact IH|]. constructor; [exact Hi|constructor].
Qed.

Definition reread_array (num_var : nat) (ns : list Z) (q q' : field) : Prop :=
  forall m ix, (0 <= m < Z.of_nat num_var)%Z -> cell_of ns ix -> q' m ix = reread (q m ix).

Lemma dims_ok p nd : length (p_dims p) = nd -> (1 <= nd <= 3)%nat ->
  ((1 <=? length (p_dims p)) && (length (p_dims p) <=? 3))%nat%bool = true.
Proof. intros -> H. apply andb_true_iff. split; apply Nat.leb_le; lia. Qed.

Lemma write_array_ok p q nv : (1 <= length (p_dims p) <= 3)%nat ->
  write_array p q nv = Ok (write_loops q nv (rev (map d_n (p_dims p))) []).
Proof. intros H. unfold write_array. rewrite (dims_ok p _ eq_refl H). reflexivity. Qed.

(** Reading with any patch that has the same numbers of cells. *)
Lemma read_array_ok p p' q nv rest : (1 <= length (p_dims p) <= 3)%nat -> (1 <= nv)%nat ->
  map d_n (p_dims p') = map d_n (p_dims p) ->
  finite_array nv (map d_n (p_dims p)) q ->
  exists q', read_array p' nv (lines (write_loops q nv (rev (map d_n (p_dims p))) [] ++ rest)) = Ok (q', lines rest) /\
    reread_array nv (map d_n (p_dims p)) q q'.
Proof.
  intros H Hnv Hp Hf. unfold read_array.
  assert (L : length (p_dims p') = length (p_dims p)).
  { rewrite <- (map_length d_n), Hp, map_length. reflexivity. }
  rewrite (dims_ok p' _ L H). rewrite Hp.
  destruct (read_loops_ok q nv Hnv (rev (map d_n (p_dims p))) [] rest) as (f & E & F).
  { intros m jx Hm Hj. rewrite app_nil_r. apply Hf; [exact Hm|].
    apply cell_of_rev in Hj. rewrite rev_involutive in Hj. exact Hj. }
  rewrite E. eexists. split; [reflexivity|]. intros m ix Hm Hix. cbv beta.
  rewrite F by (apply cell_of_rev, Hix). rewrite rev_involutive, app_nil_r.
  rewrite (nth_indep _ 0 (reread (q 0%Z ix))) by (rewrite map_length, range_length; lia).
  rewrite (map_nth (fun m => reread (q m ix))). rewrite range_nth by exact Hm. reflexivity.
Qed.
