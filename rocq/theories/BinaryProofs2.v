(** Reading a whole binary frame. *)
From Coq Require Import Ascii String.
From Verif Require Import Base FormatModel FormatSpec AsciiModel AsciiSpec FormatProofs FormatProofs2 AsciiProofs AsciiProofs2
  BinaryModel BinarySpec BinaryProofs.
Open Scope Q_scope.

Section Frame.
Context {D : Type}.
Variables (t : Q) (num_eqn num_aux g : Z) (num_dim : nat) (fmt : text).
Hypothesis Heqn : (0 <= num_eqn)%Z.
Hypothesis Haux : (0 <= num_aux)%Z.
Hypothesis Hg : (0 <= g)%Z.
Hypothesis Hdim : (1 <= num_dim <= 3)%nat.

Definition b_values (n : nat) : t_data :=
  mkT (reread t) num_eqn (Z.of_nat n) num_aux (Z.of_nat num_dim) g (Some fmt).

Lemma read_t_header (fs : @files D) path prefix frame n : no_space fmt -> fmt <> [] ->
  fs (read_name path prefix "t" frame) = Some (TextFile (t_header t num_eqn (Z.of_nat n) num_aux (Z.of_nat num_dim) g fmt)) ->
  read_t fs path prefix frame = Ok (b_values n).
Proof.
  intros Hf1 Hf2 H. unfold read_t, open_text. rewrite H. cbn [bind]. unfold t_header.
  rewrite read_float_line by (apply no_nl_lit; reflexivity). cbn [bind].
  rewrite read_int_line by (apply no_nl_lit; reflexivity). cbn [bind].
  rewrite read_int_line by (apply no_nl_lit; reflexivity). cbn [bind].
  rewrite read_int_line by (apply no_nl_lit; reflexivity). cbn [bind].
  rewrite read_int_line by (apply no_nl_lit; reflexivity). cbn [bind].
  unfold int_line, fmt_5i.
  rewrite data_line_padded by (try lia; try apply no_space_str_int; try apply str_int_nonempty; apply no_nl_lit; reflexivity).
  cbv beta iota. rewrite parse_str_int.
  pose proof (data_line_padded 0 fmt 18 (lit "file_format") [] ltac:(lia) Hf1 Hf2 ltac:(apply no_nl_lit; reflexivity)) as K.
  rewrite app_nil_r in K. unfold pad in K. cbn [repeat app] in K. cbv beta iota zeta.
  replace (data_line (lines (fmt ++ repeat c_space 18 ++ lit "file_format" ++ [c_nl]))) with (@Ok (text * handle) (fmt, lines [])).
  reflexivity.
Qed.

(** the patch, the time and the array of one state *)
Definition read_as (x : frame_patch) (s : bstate) : Prop :=
  b_patch s = reread_patch (fp_patch x) /\ b_t s = reread t /\ b_num_aux s = num_aux /\
  holds num_eqn (cells x) (fp_q x) (b_q s) /\ b_aux s = None.

Lemma cells_pos x : writable_patch num_dim (fp_patch x) -> Forall (fun n => 0 < n)%Z (cells x).
Proof.
  intros W. unfold cells. apply Forall_forall. intros n Hn. apply in_map_iff in Hn. destruct Hn as (d & <- & Hd).
  pose proof (wp_valid _ _ W) as V. rewrite Forall_forall in V. apply (V d Hd).
Qed.
Lemma reread_cells x : writable_patch num_dim (fp_patch x) -> map d_n (p_dims (reread_patch (fp_patch x))) = cells x.
Proof. intros W. cbn [reread_patch p_dims]. apply reread_dims_n. rewrite (wp_dims _ _ W). cbn [xyz length]. lia. Qed.
Lemma reread_count x : writable_patch num_dim (fp_patch x) -> length (p_dims (reread_patch (fp_patch x))) = num_dim.
Proof. intros W. cbn [reread_patch p_dims]. rewrite reread_dims_length; [apply (wp_dims _ _ W)|]. rewrite (wp_dims _ _ W). cbn [xyz length]. lia. Qed.

Lemma read_bstates_ok n xs : Forall (fun x => writable_patch num_dim (fp_patch x)) xs -> forall pre rest,
  exists ss, read_bstates (b_values n) (pre ++ concat (map (fun x => dump_patch num_eqn g (cells x) (fp_q x)) xs) ++ rest)
      (length xs) (lines (concat (map (fun x => patch_header (fp_patch x)) xs))) (Z.of_nat (length pre)) = Ok ss /\
    Forall2 read_as xs ss.
Proof.
  intros H. induction H as [|x xs Hx _ IH]; intros pre rest.
  - exists []. split; [reflexivity|constructor].
  - cbn [length read_bstates map concat]. unfold read_bstate. change (f_num_dim (b_values n)) with (Z.of_nat num_dim). change (f_num_eqn (b_values n)) with num_eqn.
    change (f_num_ghost (b_values n)) with g. change (f_t (b_values n)) with (reread t). change (f_num_aux (b_values n)) with num_aux.
    rewrite Nat2Z.id. rewrite (read_header (fp_patch x)) by (try apply (wp_dims _ _ Hx); try apply (wp_valid _ _ Hx); lia).
    cbn [bind]. rewrite reread_cells by exact Hx.
    destruct (next_array_ok num_eqn g (cells x) (fp_q x) pre
                (concat (map (fun x => dump_patch num_eqn g (cells x) (fp_q x)) xs) ++ rest) Heqn Hg (cells_pos x Hx))
      as (a & E & Hs & Hv).
    rewrite <- app_assoc. rewrite E. cbn [bind]. rewrite reread_count by exact Hx.
    replace ((1 <=? num_dim) && (num_dim <=? 3))%nat%bool with true
      by (symmetry; apply andb_true_iff; split; apply Nat.leb_le; lia).
    cbn [bind].
    destruct (IH (pre ++ dump_patch num_eqn g (cells x) (fp_q x)) rest) as (ss & E2 & F).
    rewrite <- app_assoc in E2. rewrite E2. cbn [bind]. eexists. split; [reflexivity|]. constructor; [|exact F].
    unfold read_as. cbn [b_patch b_t b_num_aux b_q b_aux]. repeat (split; [reflexivity|]). split; [|reflexivity].
    destruct (Z.eqb_spec g 0) as [E0|Hne].
    + clear E E2 IH F. subst g. apply nocut_holds; assumption.
    + apply (cut_holds num_eqn g (cells x) (fp_q x) a); [lia|apply cells_pos, Hx|exact Hs|exact Hv].
Qed.

(** the auxiliary arrays, for at least one layer of ghost cells *)
Definition read_as_aux (x : frame_patch) (s : bstate) : Prop :=
  b_patch s = reread_patch (fp_patch x) /\ b_t s = reread t /\ b_num_aux s = num_aux /\
  holds num_eqn (cells x) (fp_q x) (b_q s) /\ exists a, b_aux s = Some a /\ holds num_aux (cells x) (fp_aux x) a.

Lemma read_baux_ok xs ss : (0 < g)%Z -> Forall (fun x => writable_patch num_dim (fp_patch x)) xs -> Forall2 read_as xs ss ->
  forall pre rest,
  exists ss', read_baux g (pre ++ concat (map (fun x => dump_patch num_aux g (cells x) (fp_aux x)) xs) ++ rest) ss
      (Z.of_nat (length pre)) = Ok ss' /\ Forall2 read_as_aux xs ss'.
Proof.
  intros Hg0 W F. induction F as [|x s xs ss Hs _ IH]; intros pre rest.
  - exists []. split; [reflexivity|constructor].
  - inversion W as [|? ? Wx Wxs]; subst. specialize (IH Wxs). destruct Hs as (H1 & H2 & H3 & H4 & H5).
    cbn [read_baux map concat]. rewrite H1, H2, H3. rewrite reread_cells by exact Wx.
    destruct (next_array_ok num_aux g (cells x) (fp_aux x) pre
                (concat (map (fun x => dump_patch num_aux g (cells x) (fp_aux x)) xs) ++ rest) Haux Hg (cells_pos x Wx))
      as (a & E & Hs & Hv).
    rewrite <- app_assoc, E. cbn [bind].
    destruct (IH (pre ++ dump_patch num_aux g (cells x) (fp_aux x)) rest) as (ss' & E2 & F').
    rewrite <- app_assoc in E2. rewrite E2. cbn [bind]. eexists. split; [reflexivity|]. constructor; [|exact F'].
    unfold read_as_aux. cbn [b_patch b_t b_num_aux b_q b_aux]. repeat (split; [reflexivity|]). split; [exact H4|].
    eexists. split; [reflexivity|]. apply (cut_holds num_aux g (cells x) (fp_aux x) a Hg0 (cells_pos x Wx) Hs Hv).
Qed.

Lemma read_frame (fs : @files D) path prefix frame xs opt : binary_format fmt -> binary_format opt -> xs <> [] ->
  Forall (fun x => writable_patch num_dim (fp_patch x)) xs ->
  stored fs path prefix frame t num_eqn num_aux g num_dim fmt xs ->
  exists ss, Forall2 read_as xs ss /\ ss <> [] /\ forall ra, binary_read fs path prefix frame opt ra =
      (if ((0 <? num_aux)%Z && ra)%bool then
        match (match fs (read_name path prefix "a" frame) with
                     | Some _ => Some (read_name path prefix "a" frame)
                     | None => match fs (read_name path prefix "a" 0) with
                               | Some _ => Some (read_name path prefix "a" 0)
                               | None => None
                               end
                     end) with
        | None => Ok ss
        | Some name => data <- from_file fs name opt ;; read_baux g data ss 0
        end
      else Ok ss).
Proof.
  intros Hf Ho Hx W (Ht & Hq & rest & Hb).
  assert (F1 : no_space fmt /\ fmt <> []).
  { destruct Hf as [<- | [<- | [<- | []]]]; (split; [|discriminate]); repeat constructor. }
  destruct F1 as [F1 F2].
  pose proof (read_t_header fs path prefix frame (length xs) F1 F2 Ht) as RT.
  destruct (read_bstates_ok (length xs) xs W [] rest) as (ss & E & F).
  exists ss. split; [exact F|]. assert (Hne : ss <> []) by (inversion F; subst; [congruence|discriminate]).
  split; [exact Hne|]. intros ra. unfold binary_read. rewrite RT. cbn [bind]. unfold from_file at 1. rewrite Hb.
  replace (text_eqb opt (lit "binary") || text_eqb opt (lit "binary64") || text_eqb opt (lit "binary32"))%bool with true
    by (destruct Ho as [<- | [<- | [<- | []]]]; reflexivity).
  cbn [bind]. unfold open_text. rewrite Hq. cbn [bind].
  cbn [app length Z.of_nat] in E. change (f_nstates (b_values (length xs))) with (Z.of_nat (length xs)). rewrite Nat2Z.id. rewrite E. cbn [bind].
  destruct F as [|x s xs ss Hs F]; [congruence|]. destruct Hs as (_ & _ & H3 & _). rewrite H3. reflexivity.
Qed.
End Frame.
