(** Binary gauge files: C133 (observations), C134 (files that are cut off). *)
From Coq Require Import Ascii String.
From Verif Require Import Base FormatModel FormatSpec FormatProofs FormatProofs2 GFileModel GFileSpec GFileProofs GFileProps.
Open Scope Q_scope.

Lemma starts_spec : forall w s, starts w s = true <-> exists b, s = w ++ b.
Proof.
  induction w as [|c w IH]; intro s; cbn [starts].
  - split; [intros _; exists s; reflexivity|reflexivity].
  - destruct s as [|d s]; [split; [discriminate|intros (b & E); discriminate]|]. rewrite andb_true_iff, IH. split.
    + intros (E & b & ->). apply Ascii.eqb_eq in E. subst d. exists b. reflexivity.
    + intros (b & E). cbn [app] in E. split; [apply Ascii.eqb_eq; congruence|exists b; congruence].
Qed.
Lemma contains_spec w : forall s, contains w s = true <-> has w s.
Proof.
  induction s as [|c s IH]; cbn [contains].
  - rewrite starts_spec. split; [intros (b & E); exists [], b; exact E|].
    intros (a & b & E). destruct a; [exists b; exact E|discriminate].
  - rewrite orb_true_iff, IH, starts_spec. split.
    + intros [(b & E) | (a & b & E)]; [exists [], b; exact E|exists (c :: a), b; cbn [app]; congruence].
    + intros ([|a0 a] & b & E); [left; exists b; exact E|right; exists a, b; cbn [app] in E; congruence].
Qed.
Lemma contains_false w s : ~ has w s -> contains w s = false.
Proof. intro N. destruct (contains w s) eqn:E; [|reflexivity]. apply contains_spec in E. contradiction. Qed.
Lemma has_nonempty w s : w <> [] -> has w s -> s <> [].
Proof. intros N (a & b & ->) E. apply app_eq_nil in E. destruct E as (_ & E). apply app_eq_nil in E. tauto. Qed.

Lemma forall2_floats : forall ws xs, Forall2 (fun w x => parse_float w = Some x) ws xs -> floats ws = Some xs.
Proof. induction 1 as [|w x ws xs H _ IH]; cbn [floats]; [reflexivity|]. rewrite H, IH. reflexivity. Qed.
Lemma forall2_len {A B} (P : A -> B -> Prop) : forall ws xs, Forall2 P ws xs -> length ws = length xs.
Proof. induction 1; cbn [length]; congruence. Qed.
Lemma first_line_read l id loc nf : first_line l id loc nf -> read_head l = inl (mkHead id (Some loc) (Some (Z.of_nat nf))).
Proof.
  intros [(wid & wloc & wn & W & Hid & Hloc & Hn) Hd]. unfold read_head. rewrite W. cbv zeta.
  pose proof (forall2_floats _ _ Hloc) as F. pose proof (forall2_len _ _ _ Hloc) as L.
  change (word (lit "#" :: lit "gauge_id=" :: wid :: _) 2) with wid. rewrite Hid.
  destruct wloc as [|w1 [|w2 [|w3 [|w4 wl]]]]; cbn [length] in L; try lia;
    cbn [app length Nat.ltb Nat.leb Nat.eqb skipn firstn]; cbn [word nth]; rewrite F, Hn; reflexivity.
Qed.
Lemma format_read l2 l3 ls ty single : kind_line l2 ty -> format_lines ls single ->
  read_format (l2 :: l3 :: ls) = (ty, if single then Binary32 else Binary64).
Proof.
  intros K F. unfold read_format. cbv zeta. cbn [nth].
  assert (FM : match nth 0 ls [] with [] => Binary64 | _ => if contains (lit "binary32") (nth 0 ls []) then Binary32 else if contains (lit "binary") (nth 0 ls []) then Binary64 else Ascii_data end
     = if single then Binary32 else Binary64).
  { destruct ls as [|l ls]; cbn [nth format_lines] in *; [rewrite F; reflexivity|]. destruct single.
    - pose proof (has_nonempty (lit "binary32") l ltac:(discriminate) F) as N. destruct l as [|c l]; [congruence|]. rewrite (proj2 (contains_spec _ _) F). reflexivity.
    - destruct F as (F1 & F2). pose proof (has_nonempty (lit "binary") l ltac:(discriminate) F1) as N. destruct l as [|c l]; [congruence|].
      rewrite (contains_false _ _ F2), (proj2 (contains_spec _ _) F1). reflexivity. }
  destruct ty; cbn [kind_line] in K.
  - destruct K as (K1 & K2). rewrite (contains_false _ _ K2), (proj2 (contains_spec _ _) K1). f_equal. exact FM.
  - rewrite (proj2 (contains_spec _ _) K). f_equal. exact FM.
Qed.

Lemma groups_concat n : forall rows, Forall (fun r : list Q => length r = n) rows -> groups (length rows) n (concat rows) = rows.
Proof.
  induction rows as [|r rows IH]; intro H; [reflexivity|]. cbn [length groups concat]. pose proof (Forall_inv H) as L. cbn beta in L.
  assert (E1 : firstn n (r ++ concat rows) = r) by (rewrite <- L, firstn_app, firstn_all, Nat.sub_diag, firstn_O; apply app_nil_r).
  assert (E2 : skipn n (r ++ concat rows) = concat rows) by (rewrite <- L, skipn_app, skipn_all, Nat.sub_diag; reflexivity).
  rewrite E1, E2, (IH (Forall_inv_tail H)). reflexivity.
Qed.
Lemma concat_length n : forall rows, Forall (fun r : list Q => length r = n) rows -> length (concat rows) = (length rows * n)%nat.
Proof. induction rows as [|r rows IH]; intro H; [reflexivity|]. cbn [concat length]. rewrite app_length, (IH (Forall_inv_tail H)), (Forall_inv H). lia. Qed.
Lemma trunc_inject z : trunc (inject_Z z) = z.
Proof. unfold trunc, inject_Z. cbn [Qnum Qden]. apply Z.quot_1_r. Qed.

Section Bin.
Variable bytes : Type.
Variable decode64 decode32 : bytes -> list Q.
Notation read := (GFileModel.read bytes decode64 decode32).
Definition numbers (single : bool) (b : bytes) : list Q := if single then decode32 b else decode64 b.

Lemma binary_read txt bin id s l1 l2 l3 ls loc nf ty single b (g : gauge) :
  txt (txt_name id) = Some s -> lines s = l1 :: l2 :: l3 :: ls -> first_line l1 id loc nf -> kind_line l2 ty -> format_lines ls single ->
  bin (bin_name id) = Some b ->
  let d := numbers single b in let n := (2 + nf)%nat in
  let g' := mkGauge (Some id) (Some loc) (g_level g) (g_t g) (g_q g) ty (g_path g) in
  read txt bin id g = if (length d mod n =? 0)%nat then store (Some (Z.of_nat nf)) n (groups (length d / n) n d) g' else (g', Raised WrongCount).
Proof.
  intros T L F K M B d n g'. unfold GFileModel.read. rewrite T, L, (first_line_read _ _ _ _ F), (format_read l2 l3 ls ty single K M). cbn [h_id]. rewrite Z.eqb_refl. cbn [negb].
  assert (E : Z.to_nat (2 + Z.of_nat nf) = n) by (unfold n; lia).
  assert (Z0 : (Z.of_nat nf <? 0)%Z = false) by lia.
  destruct single; cbn [h_neqn]; rewrite B, Z0, E; reflexivity.
Qed.

(** ** C133 *)
Theorem C133_binary_observations :
  forall txt bin id s l1 l2 l3 ls loc nf ty single b obs (g : gauge),
  txt (txt_name id) = Some s -> lines s = l1 :: l2 :: l3 :: ls ->
  first_line l1 id loc nf -> kind_line l2 ty -> format_lines ls single ->
  bin (bin_name id) = Some b -> numbers single b = concat (map record obs) -> Forall (fun o => length (the_fields o) = nf) obs -> obs <> [] ->
  (ty = Lagrangian -> (3 <= nf)%nat) ->
  read txt bin id g =
  (mkGauge (Some id) (Some loc) (Some (map the_level obs)) (Some (map the_time obs)) (Some (nf, map the_fields obs)) ty (places ty loc obs (g_path g)), Done).
Proof.
  intros txt bin id s l1 l2 l3 ls loc nf ty single b obs g T L F K M B D HF NE HL.
  rewrite (binary_read txt bin id s l1 l2 l3 ls loc nf ty single b g T L F K M B). cbv zeta. rewrite D.
  assert (R : Forall (fun r : list Q => length r = (2 + nf)%nat) (map record obs)).
  { apply Forall_map. eapply Forall_impl; [|exact HF]. intros ((lev & t) & v) H. cbn [the_fields snd record length] in *. lia. }
  rewrite (concat_length _ _ R), Nat.mod_mul, Nat.div_mul by lia. cbn [Nat.eqb]. rewrite (groups_concat _ _ R).
  change (2 + nf)%nat with (S (S nf)). unfold store. rewrite Z.eqb_refl, !map_map.
  assert (E1 : map (fun o => trunc (nth 0 (record o) 0)) obs = map the_level obs).
  { apply map_ext. intros ((lev & t) & v). cbn [record nth]. apply trunc_inject. }
  assert (E2 : map (fun o => nth 1 (record o) 0) obs = map the_time obs) by (apply map_ext; intros ((lev & t) & v); reflexivity).
  assert (E3 : map (fun o => skipn 2 (record o)) obs = map the_fields obs) by (apply map_ext; intros ((lev & t) & v); reflexivity).
  rewrite E1, E2, E3. unfold particle_path. cbn [g_location g_type].
  destruct loc as [|x [|y [|z r]]]; try reflexivity. destruct ty.
  - destruct obs as [|o obs]; [congruence|]. reflexivity.
  - replace (3 <=? nf)%nat with true by (symmetry; apply Nat.leb_le; apply HL; reflexivity). cbn [places]. unfold set_path. cbn [g_id g_location g_level g_t g_q g_type].
    repeat f_equal. clear. induction obs as [|o obs IH]; [reflexivity|]. cbn [map combine fst snd]. rewrite IH. reflexivity.
Qed.

(** ** C134: a file is refused exactly if it does not end with a whole record; the data of the object are then as before *)
Theorem C134_cut_off_partial :
  forall txt bin id s l1 l2 l3 ls loc nf ty single b (g : gauge),
  txt (txt_name id) = Some s -> lines s = l1 :: l2 :: l3 :: ls ->
  first_line l1 id loc nf -> kind_line l2 ty -> format_lines ls single -> bin (bin_name id) = Some b ->
  ~ Nat.divide (2 + nf) (length (numbers single b)) <->
  read txt bin id g = (mkGauge (Some id) (Some loc) (g_level g) (g_t g) (g_q g) ty (g_path g), Raised WrongCount).
Proof.
  intros txt bin id s l1 l2 l3 ls loc nf ty single b g T L F K M B.
  rewrite (binary_read txt bin id s l1 l2 l3 ls loc nf ty single b g T L F K M B). cbv zeta.
  assert (DV : (length (numbers single b) mod (2 + nf) =? 0)%nat = true <-> Nat.divide (2 + nf) (length (numbers single b))).
  { rewrite Nat.eqb_eq. apply Nat.mod_divide. lia. }
  destruct (length (numbers single b) mod (2 + nf) =? 0)%nat eqn:E.
  - split; [intro N; exfalso; apply N, DV; reflexivity|]. intros H _.
    change (2 + nf)%nat with (S (S nf)) in H. unfold store in H. rewrite Z.eqb_refl in H. unfold particle_path in H. cbn [g_location g_type] in H.
    destruct loc as [|x [|y [|z r]]]; try discriminate H. destruct ty.
    + destruct (map _ _) in H; discriminate H.
    + destruct (3 <=? nf)%nat; discriminate H.
  - split; [reflexivity|]. intros _ N. apply DV in N. discriminate N.
Qed.
End Bin.
Print Assumptions C133_binary_observations.
Print Assumptions C134_cut_off_partial.

(** ** Concrete files *)
Definition nl : text := [c_nl].
Definition bin_header : text :=
  lit "# gauge_id=     7 location=(   0.5E+00  -0.25E+00 ) num_eqn=  3" ++ nl ++ lit "# Lagrangian particle" ++ nl ++
  lit "# level, time, q[ 1 2], eta" ++ nl ++ lit "# file format binary32, time series in .bin file" ++ nl.
Definition bin_txt : files text := set_file (txt_name 7) bin_header (fun _ => None).
Definition obs7 : list observation := [(1%Z, 0, [1; 2; 3]); (2%Z, 1 # 2, [4; -(5); 6])].
Definition bin_bin (l : list Q) : files (list Q) := set_file (bin_name 7) l (fun _ => None).
(** single precision numbers are the list itself here, double precision ones nothing *)
Definition rb := read (list Q) (fun _ => []) (fun l => l).
Example C133_example : exists l1 l2 l3 ls,
  lines bin_header = l1 :: l2 :: l3 :: ls /\ first_line l1 7 [5 # 10; -(25 # 100)] 3 /\ kind_line l2 Lagrangian /\ format_lines ls true /\
  Forall (fun o => length (the_fields o) = 3%nat) obs7 /\
  rb bin_txt (bin_bin (concat (map record obs7))) 7 new_gauge =
  (mkGauge (Some 7%Z) (Some [5 # 10; -(25 # 100)]) (Some [1%Z; 2%Z]) (Some [0; 1 # 2]) (Some (3%nat, [[1; 2; 3]; [4; -(5); 6]])) Lagrangian
     (Some [[0; 2; 3]; [1 # 2; -(5); 6]]), Done).
Proof.
  do 4 eexists. split; [vm_compute; reflexivity|]. split.
  - constructor; [|cbn; lia]. exists (lit "7"), [lit "0.5E+00"; lit "-0.25E+00"], (lit "3"). split; [vm_compute; reflexivity|]. split; [vm_compute; reflexivity|]. split; [|vm_compute; reflexivity].
    constructor; [vm_compute; reflexivity|]. constructor; [vm_compute; reflexivity|constructor].
  - split; [apply contains_spec; vm_compute; reflexivity|]. split; [apply contains_spec; vm_compute; reflexivity|]. split; [repeat constructor|]. vm_compute. reflexivity.
Qed.
(** A file that ends after the first of two records is read without a word. *)
Theorem C134_cut_off_refuted :
  exists bin full g', numbers (list Q) (fun _ => []) (fun l => l) true full = concat (map record obs7) /\
  bin (bin_name 7) = Some (firstn 5 full) /\
  rb bin_txt bin 7 new_gauge = (g', Done) /\ g_level g' = Some [1%Z].
Proof.
  exists (bin_bin (firstn 5 (concat (map record obs7)))), (concat (map record obs7)). eexists. split; [reflexivity|]. split; [reflexivity|].
  split; [vm_compute; reflexivity|reflexivity].
Qed.
Print Assumptions C134_cut_off_refuted.
Example C134_example : ~ Nat.divide 5 (length (firstn 7 (concat (map record obs7)))) /\
  snd (rb bin_txt (bin_bin (firstn 7 (concat (map record obs7)))) 7 (ex_gauge [0; 1] Stationary)) = Raised WrongCount.
Proof. split; [intros (z & E); cbn in E; lia|vm_compute; reflexivity]. Qed.

(** ** C119: a gauge can be written exactly if it is valid; otherwise no file is touched *)
Theorem C119_only_valid :
  forall (str_float : Q -> text) p g (fs : files text),
  is_valid g = true <-> snd (write str_float p g fs) <> Raised NotValid.
Proof.
  intros str_float p g fs. unfold is_valid, write.
  destruct (g_id g) as [id|], (g_location g) as [loc|], (g_level g) as [lev|], (g_t g) as [t|], (g_q g) as [[nf obs]|];
    try (split; [discriminate|cbn [snd]; congruence]).
  split; [intros _|reflexivity].
  assert (R : forall o l ts, snd (rows_text p l ts o) <> Raised NotValid).
  { induction o as [|v o IH]; intros [|l0 l] [|t0 ts]; try (cbn; discriminate).
    specialize (IH l ts). cbn [rows_text]. destruct (rows_text p l ts o). exact IH. }
  destruct loc as [|x [|y r]]; try (cbn [snd]; discriminate). specialize (R obs lev t). destruct (rows_text p lev t obs). exact R.
Qed.
Theorem C119_not_valid : forall (str_float : Q -> text) p g (fs : files text), is_valid g = false -> write str_float p g fs = (fs, Raised NotValid).
Proof.
  intros str_float p g fs. unfold is_valid, write.
  destruct (g_id g) as [id|], (g_location g) as [loc|], (g_level g) as [lev|], (g_t g) as [t|], (g_q g) as [[nf obs]|]; try reflexivity. discriminate.
Qed.
Print Assumptions C119_only_valid.
Print Assumptions C119_not_valid.
Example C119_only_valid_example : is_valid (ex_gauge [0; 1] Stationary) = true /\ is_valid new_gauge = false.
Proof. split; reflexivity. Qed.
