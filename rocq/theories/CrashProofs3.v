(** Reading the remains of a frame: proofs. *)
From Coq Require Import Ascii String.
From Verif Require Import Base FormatModel FormatSpec AsciiModel AsciiSpec FormatProofs FormatProofs2 AsciiProofs AsciiProofs2
  CrashModel CrashSpec CrashProofs CrashProofs2.
Open Scope Q_scope.

Section Frame.
Context {D : Type} (sol : @solution D) (t : Q) (num_eqn num_aux : nat) (data : option D).
Hypothesis W : writable sol t num_eqn num_aux data.
(** the problem data that are found, if any *)
Context (dd : option D).
Let ss := so_states sol.
Let tv := t_values sol t num_eqn num_aux.

Lemma in_range : (1 <= so_num_dim sol <= 3)%nat.
Proof. apply W. Qed.
Lemma one_eqn : (1 <= num_eqn)%nat.
Proof. apply W. Qed.
Lemma of_state s : In s ss -> writable_state sol t num_eqn num_aux data s.
Proof. intros H. pose proof (w_states _ _ _ _ _ W) as F. rewrite Forall_forall in F. apply F, H. Qed.
Lemma dims_len s : In s ss -> length (p_dims (s_patch s)) = so_num_dim sol.
Proof. intros H. apply (wp_dims _ _ (ws_patch _ _ _ _ _ _ (of_state s H))). Qed.
Lemma dims_valid s : In s ss -> Forall valid_dim (p_dims (s_patch s)).
Proof. intros H. exact (wp_valid _ _ (ws_patch _ _ _ _ _ _ (of_state s H))). Qed.
Lemma dims_pos s : In s ss -> Forall (fun d => (0 < d_n d)%Z) (p_dims (s_patch s)).
Proof. intros H. pose proof (dims_valid s H) as V. clear - V. induction V as [|d l (P & _) _ IH]; constructor; assumption. Qed.
Lemma cells_same s : In s ss -> map d_n (p_dims (reread_patch (s_patch s))) = map d_n (p_dims (s_patch s)).
Proof. intros H. apply reread_dims_n. pose proof in_range. rewrite (dims_len s H). cbn [xyz length]. lia. Qed.
Lemma reread_pos s : In s ss -> positive_dims (reread_patch (s_patch s)).
Proof.
  intros H. unfold positive_dims. apply Forall_map with (f := d_n) (P := fun n => (0 < n)%Z). rewrite (cells_same s H).
  apply Forall_map. exact (dims_pos s H).
Qed.

(** a state, complete *)
Lemma state_whole s rest : In s ss ->
  exists s', read_state tv dd (lines (q_text s ++ rest)) = Ok (s', lines rest) /\ reread_state t num_eqn num_aux dd s s'.
Proof.
  intros H. unfold read_state, tv, t_values. cbn [f_num_dim f_num_eqn f_num_aux f_t]. rewrite !Nat2Z.id.
  unfold q_text. rewrite <- app_assoc. pose proof in_range as N. pose proof (of_state s H) as S.
  rewrite (read_header _ _ _ (dims_len s H) ltac:(lia) (dims_valid s H)). cbn [bind].
  replace (Z.of_nat num_eqn <? 0)%Z with false by (symmetry; apply Z.ltb_ge; lia).
  rewrite (ws_num_eqn _ _ _ _ _ _ S).
  destruct (read_array_ok (s_patch s) (reread_patch (s_patch s)) (s_q s) num_eqn rest) as (q' & E & Q').
  - rewrite (dims_len s H). exact N.
  - exact one_eqn.
  - exact (cells_same s H).
  - apply S.
  - rewrite E. cbn [bind]. eexists. split; [reflexivity|]. exists q'. split; [reflexivity|exact Q'].
Qed.
(** a state of which the end is missing *)
Definition state_but_last (w : text) (s s' : @state D) : Prop :=
  ~ starts_word w /\
  exists q', s' = mkState (reread_patch (s_patch s)) (reread t) num_eqn q' 0 None num_aux None dd /\
    array_but_last num_eqn (map d_n (p_dims (s_patch s))) (s_q s) q'.
Lemma state_cut s u w : In s ss -> u ++ w = q_text s -> w <> [] -> cut_ok (read_state tv dd (lines u)) (state_but_last w s).
Proof.
  intros H E N. unfold read_state, tv, t_values. cbn [f_num_dim f_num_eqn f_num_aux f_t]. rewrite !Nat2Z.id.
  pose proof in_range as R. pose proof (of_state s H) as S. unfold q_text in E.
  replace (Z.of_nat num_eqn <? 0)%Z with false by (symmetry; apply Z.ltb_ge; lia).
  destruct (beginning_app u w _ _ E) as [(u2 & -> & E2)|(w1 & E1 & N1 & _)].
  - rewrite (read_header _ _ _ (dims_len s H) ltac:(lia) (dims_valid s H)). cbn [bind].
    rewrite (ws_num_eqn _ _ _ _ _ _ S) in E2.
    pose proof (array_cut (s_patch s) (reread_patch (s_patch s)) (s_q s) num_eqn u2 w) as C.
    rewrite (dims_len s H) in C. specialize (C R one_eqn (dims_pos s H) (cells_same s H) (ws_q _ _ _ _ _ _ S) E2 N).
    destruct (read_array (reread_patch (s_patch s)) num_eqn (lines u2)) as [(q' & h)|e]; [|exact I]. cbn [bind].
    destruct C as [-> [K1 K2]]. split; [reflexivity|]. split; [exact K1|]. exists q'. split; [reflexivity|exact K2].
  - pose proof (header_cut (s_patch s) (so_num_dim sol) u w1 (dims_len s H) R (dims_valid s H) E1 N1) as C.
    destruct (read_patch_header (so_num_dim sol) (lines u)) as [(p & h)|e]; [|exact I]. cbn [bind].
    destruct C as [-> P]. destruct (array_fails p num_eqn one_eqn P) as [e Ee]. rewrite Ee. exact I.
Qed.
Lemma state_fails : fails (read_state tv dd).
Proof. eexists. reflexivity. Qed.

Lemma states_whole : exists new, read_many (read_state tv dd) (length ss) (lines (concat (map q_text ss))) = Ok (new, []) /\
  Forall2 (reread_state t num_eqn num_aux dd) ss new.
Proof.
  destruct (read_many_exists (read_state tv dd) q_text (reread_state t num_eqn num_aux dd) ss []) as (new & E & F).
  - intros s r H. apply state_whole, H.
  - rewrite app_nil_r in E. exists new. split; [exact E|exact F].
Qed.
Lemma states_cut u w : u ++ w = concat (map q_text ss) -> w <> [] ->
  cut_ok (read_many (read_state tv dd) (length ss) (lines u))
    (fun new => exists l1 s n1 s', ss = l1 ++ [s] /\ new = n1 ++ [s'] /\ Forall2 (reread_state t num_eqn num_aux dd) l1 n1 /\ state_but_last w s s').
Proof.
  intros E N. apply (read_many_cut (read_state tv dd) q_text (reread_state t num_eqn num_aux dd) (fun s w s' => state_but_last w s s') state_fails ss); try assumption.
  - intros s r H. apply state_whole, H.
  - intros s u' w' H E' N'. apply state_cut; assumption.
Qed.

(** ** auxiliary arrays *)
Definition aux_whole (s s' : @state D) : Prop :=
  exists q' a a', s' = mkState (reread_patch (s_patch s)) (reread t) num_eqn q' 0 None num_aux (Some a') dd /\
    reread_array num_eqn (map d_n (p_dims (s_patch s))) (s_q s) q' /\
    s_aux s = Some a /\ reread_array num_aux (map d_n (p_dims (s_patch s))) a a'.
Definition aux_but_last (w : text) (s s' : @state D) : Prop :=
  ~ starts_word w /\
  exists q' a a', s' = mkState (reread_patch (s_patch s)) (reread t) num_eqn q' 0 None num_aux (Some a') dd /\
    reread_array num_eqn (map d_n (p_dims (s_patch s))) (s_q s) q' /\
    s_aux s = Some a /\ array_but_last num_aux (map d_n (p_dims (s_patch s))) a a'.

Lemma aux_complete l : (0 < num_aux)%nat -> (forall s, In s l -> In s ss) -> forall new,
  Forall2 (reread_state t num_eqn num_aux dd) l new ->
  exists new', read_aux_states (so_num_dim sol) num_aux new (lines (concat (map a_text l))) = Ok new' /\ Forall2 aux_whole l new'.
Proof.
  intros Hn. induction l as [|s l IH]; intros Hin new F.
  - inversion F; subst. exists []. split; [reflexivity|constructor].
  - inversion F as [|? s' ? new1 (q' & -> & Q') F1]; subst.
    assert (H : In s ss) by (apply Hin; left; reflexivity).
    pose proof in_range as N. pose proof (of_state s H) as S.
    destruct (ws_aux _ _ _ _ _ _ S Hn) as (a & Ea & Ha).
    cbn [map concat read_aux_states]. unfold a_text at 1. rewrite Ea. rewrite <- !app_assoc.
    rewrite (read_header _ _ _ (dims_len s H) ltac:(lia) (dims_valid s H)). cbn [bind s_patch].
    rewrite Z.eqb_refl. cbn [negb]. rewrite same_dims_refl. cbn [bind]. rewrite (ws_num_aux _ _ _ _ _ _ S).
    destruct (read_array_ok (s_patch s) (reread_patch (s_patch s)) a num_aux (concat (map a_text l))) as (a' & E & A').
    + rewrite (dims_len s H). exact N.
    + exact Hn.
    + exact (cells_same s H).
    + exact Ha.
    + rewrite E. cbn [bind].
      destruct (IH (fun s0 K => Hin s0 (or_intror K)) new1 F1) as (new' & E' & F').
      rewrite E'. cbn [bind s_t s_num_eqn s_q s_mp s_p s_num_aux s_data]. eexists. split; [reflexivity|].
      constructor; [|exact F']. exists q', a, a'. repeat split; assumption.
Qed.

Lemma aux_cut l : (0 < num_aux)%nat -> (forall s, In s l -> In s ss) -> forall new u w,
  Forall2 (reread_state t num_eqn num_aux dd) l new -> u ++ w = concat (map a_text l) -> w <> [] ->
  match read_aux_states (so_num_dim sol) num_aux new (lines u) with
  | Ok new' => exists l1 s n1 s', l = l1 ++ [s] /\ new' = n1 ++ [s'] /\ Forall2 aux_whole l1 n1 /\ aux_but_last w s s'
  | Err _ => True
  end.
Proof.
  intros Hn. induction l as [|s l IH]; intros Hin new u w F E N.
  - cbn [map concat] in E. apply app_eq_nil in E. destruct E as [_ ->]. congruence.
  - inversion F as [|? s' ? new1 (q' & -> & Q') F1]; subst.
    assert (H : In s ss) by (apply Hin; left; reflexivity).
    pose proof in_range as R. pose proof (of_state s H) as S.
    destruct (ws_aux _ _ _ _ _ _ S Hn) as (a & Ea & Ha).
    cbn [map concat] in E. cbn [read_aux_states].
    assert (PAT : a_text s = patch_header (s_patch s) ++ write_loops a num_aux (rev (map d_n (p_dims (s_patch s)))) []).
    { unfold a_text. rewrite Ea, (ws_num_aux _ _ _ _ _ _ S). reflexivity. }
    rewrite PAT, <- app_assoc in E.
    destruct (beginning_app u w _ _ E) as [(u2 & -> & E2)|(w1 & E1 & N1 & _)].
    2:{ pose proof (header_cut (s_patch s) (so_num_dim sol) u w1 (dims_len s H) R (dims_valid s H) E1 N1) as C.
        destruct (read_patch_header (so_num_dim sol) (lines u)) as [(p & h)|e]; [|exact I]. cbn [bind].
        destruct C as [-> _]. destruct (array_fails (reread_patch (s_patch s)) num_aux Hn (reread_pos s H)) as [e Ee].
        cbn [s_patch]. destruct (negb _); [exact I|]. destruct (same_dims _ _); [|exact I]. cbn [bind]. rewrite Ee. exact I. }
    rewrite (read_header _ _ _ (dims_len s H) ltac:(lia) (dims_valid s H)). cbn [bind s_patch].
    rewrite Z.eqb_refl. cbn [negb]. rewrite same_dims_refl. cbn [bind].
    destruct (beginning_app u2 w _ _ E2) as [(u3 & -> & E3)|(w1 & E1 & N1 & ->)].
    + destruct (read_array_ok (s_patch s) (reread_patch (s_patch s)) a num_aux u3) as (a' & Er & A').
      { rewrite (dims_len s H). exact R. } { exact Hn. } { exact (cells_same s H). } { exact Ha. }
      rewrite Er. cbn [bind]. specialize (IH (fun s0 K => Hin s0 (or_intror K)) new1 u3 w F1 E3 N).
      destruct (read_aux_states (so_num_dim sol) num_aux new1 (lines u3)) as [new'|e]; [|exact I]. cbn [bind].
      destruct IH as (l1 & s1 & n1 & s1' & -> & -> & F2 & K). cbn [s_t s_num_eqn s_q s_mp s_p s_num_aux s_data].
      eexists (s :: l1), s1, (_ :: n1), s1'. split; [reflexivity|]. split; [reflexivity|]. split; [|exact K].
      constructor; [|exact F2]. exists q', a, a'. repeat split; assumption.
    + pose proof (array_cut (s_patch s) (reread_patch (s_patch s)) a num_aux u2 w1) as C.
      rewrite (dims_len s H) in C. specialize (C R Hn (dims_pos s H) (cells_same s H) Ha E1 N1).
      destruct (read_array (reread_patch (s_patch s)) num_aux (lines u2)) as [(a' & h)|e]; [|exact I]. cbn [bind].
      destruct C as [-> [K1 K2]]. destruct l as [|s2 l].
      * inversion F1; subst. cbn [read_aux_states bind s_t s_num_eqn s_q s_mp s_p s_num_aux s_data map concat]. rewrite app_nil_r.
        eexists [], s, [], _. split; [reflexivity|]. split; [reflexivity|]. split; [constructor|]. split; [exact K1|].
        exists q', a, a'. repeat split; assumption.
      * inversion F1 as [|? s3 ? new2 (q2 & -> & _) _]; subst. cbn [read_aux_states].
        destruct (so_num_dim sol) eqn:ND; [lia|]. exact I.
Qed.

(** ** what these mean *)
Hypothesis DD : dd = None \/ dd = data.
Lemma nine_but_last nv ns q q' : array_but_last nv ns q q' -> same_but_last nv ns q q'.
Proof. intros H m ix Hm Hix N. rewrite (H m ix Hm Hix N). apply reread_accurate. Qed.
Lemma nine_all nv ns q q' : same_array nv ns q q' -> same_but_last nv ns q q'.
Proof. intros H m ix Hm Hix _. exact (H m ix Hm Hix). Qed.
Lemma patch_back s : In s ss -> same_patch (s_patch s) (reread_patch (s_patch s)).
Proof. intros H. pose proof in_range. apply (same_patch_reread _ (so_num_dim sol)); [exact (dims_len s H)|lia|exact (dims_valid s H)]. Qed.
Lemma data_back s : In s ss -> dd = None \/ dd = s_data s.
Proof. intros H. rewrite (ws_data _ _ _ _ _ _ (of_state s H)). exact DD. Qed.

Lemma saved_plain s s' : In s ss -> reread_state t num_eqn num_aux dd s s' -> saved same_array s s'.
Proof.
  intros H (q' & -> & Q'). pose proof (of_state s H) as S.
  constructor; cbn [s_patch s_t s_num_eqn s_q s_num_aux s_aux s_data].
  - exact (patch_back s H).
  - rewrite (ws_t _ _ _ _ _ _ S). apply reread_accurate.
  - symmetry. apply S.
  - rewrite (ws_num_eqn _ _ _ _ _ _ S). apply same_array_reread, Q'.
  - symmetry. apply S.
  - left. reflexivity.
  - exact (data_back s H).
Qed.
Lemma saved_aux s s' : In s ss -> aux_whole s s' -> saved same_array s s'.
Proof.
  intros H (q' & a & a' & -> & Q' & Ea & A'). pose proof (of_state s H) as S.
  constructor; cbn [s_patch s_t s_num_eqn s_q s_num_aux s_aux s_data].
  - exact (patch_back s H).
  - rewrite (ws_t _ _ _ _ _ _ S). apply reread_accurate.
  - symmetry. apply S.
  - rewrite (ws_num_eqn _ _ _ _ _ _ S). apply same_array_reread, Q'.
  - symmetry. apply S.
  - right. exists a, a'. split; [exact Ea|]. split; [reflexivity|]. rewrite (ws_num_aux _ _ _ _ _ _ S). apply same_array_reread, A'.
  - exact (data_back s H).
Qed.
Lemma saved_last w s s' : In s ss -> state_but_last w s s' -> saved same_but_last s s'.
Proof.
  intros H (_ & q' & -> & Q'). pose proof (of_state s H) as S.
  constructor; cbn [s_patch s_t s_num_eqn s_q s_num_aux s_aux s_data].
  - exact (patch_back s H).
  - rewrite (ws_t _ _ _ _ _ _ S). apply reread_accurate.
  - symmetry. apply S.
  - rewrite (ws_num_eqn _ _ _ _ _ _ S). apply nine_but_last, Q'.
  - symmetry. apply S.
  - left. reflexivity.
  - exact (data_back s H).
Qed.
Lemma saved_aux_last w s s' : In s ss -> aux_but_last w s s' -> saved same_but_last s s'.
Proof.
  intros H (_ & q' & a & a' & -> & Q' & Ea & A'). pose proof (of_state s H) as S.
  constructor; cbn [s_patch s_t s_num_eqn s_q s_num_aux s_aux s_data].
  - exact (patch_back s H).
  - rewrite (ws_t _ _ _ _ _ _ S). apply reread_accurate.
  - symmetry. apply S.
  - rewrite (ws_num_eqn _ _ _ _ _ _ S). apply nine_all, same_array_reread, Q'.
  - symmetry. apply S.
  - right. exists a, a'. split; [exact Ea|]. split; [reflexivity|]. rewrite (ws_num_aux _ _ _ _ _ _ S). apply nine_but_last, A'.
  - exact (data_back s H).
Qed.
Lemma saved_weaken (s s' : @state D) : saved same_array s s' -> saved same_but_last s s'.
Proof.
  intros [K1 K2 K3 K4 K5 K6 K7]. constructor; try assumption.
  - apply nine_all, K4.
  - destruct K6 as [K6|(a & a' & A1 & A2 & A3)]; [left; exact K6|right]. exists a, a'. split; [exact A1|]. split; [exact A2|apply nine_all, A3].
Qed.
Lemma all_saved_nearly nd new : nd = so_num_dim sol -> Forall2 (saved same_array) ss new -> nearly sol (mkSolution new nd).
Proof.
  intros -> F. split; [reflexivity|]. pose proof (w_some _ _ _ _ _ W) as NE. fold ss in NE.
  destruct (exists_last NE) as (l & s & E). cbn [so_states]. fold ss. rewrite E in F.
  apply Forall2_app_inv_l in F. destruct F as (l' & n2 & F1 & F2 & ->). inversion F2 as [|? s' ? r Hs Fr]; subst. inversion Fr; subst.
  exists l, s, l', s'. split; [exact E|]. split; [reflexivity|]. split; [exact F1|exact (saved_weaken _ _ Hs)].
Qed.

(** ** whole frames *)
Context (fs : @files D) (path prefix : text) (frame : Z) (read_aux : bool).
Hypothesis PKL : match fs (read_name path prefix "pkl" frame) with Some (PickleFile d) => Ok d | Some _ => Err BadValue | None => Ok None end = Ok dd.
Hypothesis TT : read_t fs path prefix frame = Ok tv.
Lemma head_of new : Forall2 (reread_state t num_eqn num_aux dd) ss new ->
  exists n0 r, new = n0 :: r /\ s_num_aux n0 = num_aux /\ length (p_dims (s_patch n0)) = so_num_dim sol.
Proof.
  intros F. pose proof (w_some _ _ _ _ _ W) as NE. fold ss in NE. destruct ss as [|s0 r0] eqn:Es; [congruence|].
  assert (H0 : In s0 (so_states sol)) by (fold ss; rewrite Es; left; reflexivity).
  inversion F as [|? n0 ? r Hn0 _]; subst. exists n0, r. destruct Hn0 as (q' & -> & _). cbn [s_num_aux s_patch reread_patch p_dims].
  split; [reflexivity|]. split; [reflexivity|]. rewrite <- (dims_len s0 H0). apply reread_dims_length.
  pose proof in_range. rewrite (dims_len s0 H0). cbn [xyz length]. lia.
Qed.
Lemma head_of_cut w new l1 s n1 s' : ss = l1 ++ [s] -> new = n1 ++ [s'] -> Forall2 (reread_state t num_eqn num_aux dd) l1 n1 -> state_but_last w s s' ->
  exists n0 r, new = n0 :: r /\ length (p_dims (s_patch n0)) = so_num_dim sol.
Proof.
  intros Es -> F (_ & q' & -> & _). pose proof in_range as R.
  assert (L : forall x, In x ss -> length (p_dims (reread_patch (s_patch x))) = so_num_dim sol).
  { intros x Hx. cbn [reread_patch p_dims]. rewrite <- (dims_len x Hx). apply reread_dims_length. rewrite (dims_len x Hx). cbn [xyz length]. lia. }
  assert (Hs : In s ss) by (rewrite Es; apply in_or_app; right; left; reflexivity).
  destruct F as [|a b l1' n1' (qa & -> & _) F].
  - cbn [app]. eexists _, []. split; [reflexivity|]. cbn [s_patch]. exact (L s Hs).
  - cbn [app]. eexists _, _. split; [reflexivity|]. cbn [s_patch]. apply L. rewrite Es. left. reflexivity.
Qed.

Lemma frame_q_cut u w sol' : fs (read_name path prefix "q" frame) = Some (TextFile u) ->
  u ++ w = concat (map q_text ss) -> w <> [] ->
  fs (read_name path prefix "a" frame) = None -> fs (read_name path prefix "a" 0) = None ->
  read fs path prefix frame read_aux [] = Ok sol' -> ~ starts_word w /\ nearly sol sol'.
Proof.
  intros Q E N A1 A2 R. unfold read in R. rewrite PKL in R. cbn [bind] in R. rewrite TT in R. cbn [bind] in R.
  unfold open_text in R. rewrite Q in R. cbn [bind] in R.
  replace (Z.to_nat (f_nstates tv)) with (length ss) in R by (unfold tv, t_values; cbn [f_nstates]; symmetry; apply Nat2Z.id).
  pose proof (states_cut u w E N) as C. destruct (read_many (read_state tv dd) (length ss) (lines u)) as [(new & h)|e]; [|discriminate R].
  cbn [bind] in R. destruct C as [_ (l1 & s & n1 & s' & Es & En & F & B)].
  destruct (head_of_cut w new l1 s n1 s' Es En F B) as (n0 & r & Eh & Hd). rewrite Eh in R. cbn [app] in R. rewrite A1, A2 in R. rewrite Hd in R.
  assert (K : sol' = mkSolution new (so_num_dim sol)) by (rewrite Eh; destruct (_ && _)%bool; congruence). subst sol'.
  split; [exact (proj1 B)|]. split; [reflexivity|]. exists l1, s, n1, s'. split; [exact Es|]. split; [exact En|].
  assert (Hs : forall x, In x l1 -> In x ss) by (intros x Hx; rewrite Es; apply in_or_app; left; exact Hx).
  split; [|apply (saved_last w); [rewrite Es; apply in_or_app; right; left; reflexivity|exact B]].
  refine (Forall2_sub _ _ _ _ _ F). intros a b Ha. apply saved_plain, Hs, Ha.
Qed.
Lemma frame_q_whole sol' : fs (read_name path prefix "q" frame) = Some (TextFile (concat (map q_text ss))) ->
  read fs path prefix frame read_aux [] = Ok sol' ->
  (fs (read_name path prefix "a" frame) = None /\ fs (read_name path prefix "a" 0) = None -> nearly sol sol') /\
  (forall u w, fs (read_name path prefix "a" frame) = Some (TextFile u) -> u ++ w = concat (map a_text ss) ->
   nearly sol sol' /\ ((0 < num_aux)%nat -> read_aux = true -> ~ starts_word w)).
Proof.
  intros Q R. unfold read in R. rewrite PKL in R. cbn [bind] in R. rewrite TT in R. cbn [bind] in R.
  unfold open_text in R. rewrite Q in R. cbn [bind] in R.
  replace (Z.to_nat (f_nstates tv)) with (length ss) in R by (unfold tv, t_values; cbn [f_nstates]; symmetry; apply Nat2Z.id).
  destruct states_whole as (new & E & F). rewrite E in R. cbn [bind] in R.
  destruct (head_of new F) as (n0 & r & En & Hna & Hnd). rewrite En in R. cbn [app] in R. rewrite <- En, Hna, Hnd in R.
  unfold tv, t_values in R. cbn [f_num_dim f_num_aux] in R. rewrite !Nat2Z.id in R.
  assert (PL : nearly sol (mkSolution new (so_num_dim sol))).
  { apply all_saved_nearly; [reflexivity|]. refine (Forall2_sub _ _ _ _ _ F). intros a b Ha. apply saved_plain, Ha. }
  split.
  - intros [A1 A2]. rewrite A1, A2 in R. assert (K : sol' = mkSolution new (so_num_dim sol)) by (destruct (_ && _)%bool; congruence). subst sol'. exact PL.
  - intros u w A Ew. rewrite A in R. destruct ((0 <? num_aux)%nat && read_aux)%bool eqn:C.
    2:{ assert (K : sol' = mkSolution new (so_num_dim sol)) by congruence. subst sol'. split; [exact PL|].
        intros Hn ->. apply Nat.ltb_lt in Hn. rewrite Hn in C. discriminate C. }
    apply andb_true_iff in C. destruct C as [Cn Cr]. apply Nat.ltb_lt in Cn. rewrite A in R. cbn [bind] in R.
    destruct (list_eq_dec ascii_dec w []) as [->|N].
    + rewrite app_nil_r in Ew. subst u. destruct (aux_complete ss Cn (fun s K => K) new F) as (new' & E' & F'). rewrite E' in R. cbn [bind] in R.
      assert (K : sol' = mkSolution new' (so_num_dim sol)) by congruence. subst sol'. split.
      * apply all_saved_nearly; [reflexivity|]. refine (Forall2_sub _ _ _ _ _ F'). intros a b Ha. apply saved_aux, Ha.
      * intros _ _. apply starts_word_short. cbn [length]. lia.
    + pose proof (aux_cut ss Cn (fun s K => K) new u w F Ew N) as C.
      destruct (read_aux_states (so_num_dim sol) num_aux new (lines u)) as [new'|e]; [|discriminate R]. cbn [bind] in R.
      assert (K : sol' = mkSolution new' (so_num_dim sol)) by congruence. subst sol'.
      destruct C as (l1 & s & n1 & s' & Es & -> & F2 & B). split; [|intros _ _; exact (proj1 B)]. split; [reflexivity|].
      exists l1, s, n1, s'. split; [exact Es|]. split; [reflexivity|].
      assert (Hs : forall x, In x l1 -> In x ss) by (intros x Hx; rewrite Es; apply in_or_app; left; exact Hx).
      split; [|apply (saved_aux_last w); [rewrite Es; apply in_or_app; right; left; reflexivity|exact B]].
      refine (Forall2_sub _ _ _ _ _ F2). intros a b Ha. apply saved_aux, Hs, Ha.
Qed.
End Frame.
