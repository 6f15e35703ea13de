(** Auxiliary arrays taken from the file of another frame. *)
From Coq Require Import Ascii String Lqa.
From Verif Require Import Base FormatModel FormatSpec FormatProofs AsciiModel AsciiSpec AsciiProofs AsciiProofs2 AsciiProps AuxSpec.
Open Scope Q_scope.

Lemma close_to_near a b : close_to a b = true -> near a b.
Proof. unfold close_to. intro H. apply qleb_le in H. exact H. Qed.
Lemma same_dims_near ds : forall es, length ds = length es -> same_dims ds es = Ok tt -> Forall2 near_dim ds es.
Proof.
  induction ds as [|d ds IH]; intros [|e es] L E; try discriminate L; [constructor|]. cbn [same_dims] in E.
  destruct ((d_n d =? d_n e)%Z && close_to (d_lower d) (d_lower e) && close_to (d_delta d) (d_delta e))%bool eqn:C; [|discriminate E].
  apply andb_true_iff in C. destruct C as (C & C3). apply andb_true_iff in C. destruct C as (C1 & C2).
  apply Z.eqb_eq in C1. constructor; [|apply IH; [injection L as L; exact L|exact E]].
  split; [exact C1|]. split; apply close_to_near; assumption.
Qed.
Lemma near_cells ds es : Forall2 near_dim ds es -> map d_n ds = map d_n es.
Proof. induction 1 as [|d e ds es (H & _) _ IH]; [reflexivity|]. cbn [map]. rewrite H, IH. reflexivity. Qed.

Section Frame.
Context {D : Type}.
Variables (sol0 : @solution D) (t0 : Q) (num_eqn0 num_aux : nat) (data0 : option D).
Hypothesis W0 : writable sol0 t0 num_eqn0 num_aux data0.

(** What was read for a state from the part of the file that belongs to [s0] *)
Definition taken (s0 s s' : @state D) : Prop :=
  exists p0 a a', same_patch (s_patch s0) p0 /\ near_patch (s_patch s) p0 /\ s_aux s0 = Some a /\
    same_array num_aux (map d_n (p_dims (s_patch s0))) a a' /\
    s' = mkState (s_patch s) (s_t s) (s_num_eqn s) (s_q s) (s_mp s) (s_p s) (s_num_aux s) (Some a') (s_data s).

Lemma read_aux_near : (0 < num_aux)%nat -> forall l0, (forall s, In s l0 -> In s (so_states sol0)) -> forall ss ss',
  Forall (fun s => length (p_dims (s_patch s)) = so_num_dim sol0) ss ->
  read_aux_states (so_num_dim sol0) num_aux ss (lines (concat (map a_text l0))) = Ok ss' ->
  exists l1 l2, l0 = l1 ++ l2 /\ Forall2 (fun s0 p => taken s0 (fst p) (snd p)) l1 (combine ss ss') /\ length ss' = length ss.
Proof.
  intros Hn. induction l0 as [|s0 l0 IH]; intros Hin ss ss' Hd E.
  - destruct ss as [|s ss]; cbn [read_aux_states map concat] in E.
    + assert (ss' = []) by congruence. subst ss'. exists [], []. repeat split. constructor.
    + exfalso. revert E. cbn. discriminate.
  - destruct ss as [|s ss].
    { cbn [read_aux_states] in E. assert (ss' = []) by congruence. subst ss'. exists [], (s0 :: l0). repeat split. constructor. }
    assert (H : In s0 (so_states sol0)) by (apply Hin; left; reflexivity).
    pose proof (nd_range _ _ _ _ _ W0) as N. pose proof (st _ _ _ _ _ W0 s0 H) as S.
    pose proof (st_len _ _ _ _ _ W0 s0 H) as Sl. pose proof (st_len13 _ _ _ _ _ W0 s0 H) as S13.
    pose proof (st_valid _ _ _ _ _ W0 s0 H) as Sv.
    destruct (ws_aux _ _ _ _ _ _ S Hn) as (a & Ea & Ha).
    apply Forall_cons_iff in Hd. destruct Hd as (Hd1 & Hd2).
    cbn [map concat read_aux_states] in E. unfold a_text at 1 in E. rewrite Ea in E. rewrite <- !app_assoc in E.
    rewrite read_header in E by (try assumption; lia). cbn [bind] in E.
    destruct (Z.eqb_spec (p_level (s_patch s)) (p_level (reread_patch (s_patch s0)))) as [Lv|Lv]; [|discriminate E]. cbn [negb] in E.
    destruct (same_dims (p_dims (s_patch s)) (p_dims (reread_patch (s_patch s0)))) as [[]|] eqn:Es; [|discriminate E]. cbn [bind] in E.
    assert (L3 : (length (p_dims (s_patch s0)) <= length xyz)%nat) by (cbn [xyz length]; lia).
    assert (Nd : Forall2 near_dim (p_dims (s_patch s)) (p_dims (reread_patch (s_patch s0)))).
    { apply same_dims_near; [|exact Es]. cbn [reread_patch p_dims]. rewrite reread_dims_length by exact L3. congruence. }
    rewrite (ws_num_aux _ _ _ _ _ _ S) in E.
    destruct (read_array_ok (s_patch s0) (s_patch s) a num_aux (concat (map a_text l0))) as (a' & E1 & A'); [exact S13|exact Hn| |exact Ha|].
    { rewrite (near_cells _ _ Nd). cbn [reread_patch p_dims]. apply reread_dims_n. exact L3. }
    rewrite E1 in E. cbn [bind] in E.
    destruct (read_aux_states (so_num_dim sol0) num_aux ss (lines (concat (map a_text l0)))) as [ss1|] eqn:E2; [|discriminate E].
    cbn [bind] in E.
    destruct (IH (fun s1 K => Hin s1 (or_intror K)) ss ss1 Hd2 E2) as (l1 & l2 & El & F & Len).
    match type of E with Ok (?x :: _) = _ => assert (Ess : ss' = x :: ss1) by congruence end. subst ss'.
    exists (s0 :: l1), l2. split; [cbn [app]; rewrite El; reflexivity|]. split; [|cbn [length]; rewrite Len; reflexivity].
    cbn [combine]. constructor; [|exact F]. cbn [fst snd].
    exists (reread_patch (s_patch s0)), a, a'. split; [apply (same_patch_reread _ (so_num_dim sol0)); [exact Sl|lia|exact Sv]|].
    split; [split; [exact Lv|exact Nd]|]. split; [exact Ea|]. split; [apply same_array_reread; exact A'|]. reflexivity.
Qed.
End Frame.

(** C126: auxiliary arrays of frame 0 are used for a later frame only if they were written for the same patches. When
    the auxiliary arrays were written with frame 0 for [sol0] and the later frame is [sol], without auxiliary arrays,
    reading it with auxiliary arrays succeeds only if the patches of [sol], as they are in the files, have the same
    levels and numbers of cells as the first patches of [sol0] and nearly the same place; each gets the array of its
    counterpart. "Nearly" is what is missing: the tolerance is absolute. *)
Theorem C126_same_patches_partial {D} (expand : text -> text) (fs fs1 fs2 : @files D) (path prefix : text) (frame : Z)
    (fmt : option text) (sol0 sol sol' : solution) t0 t num_eqn0 num_eqn num_aux data0 data :
  (0 < frame)%Z -> expand path = path -> (0 < num_aux)%nat -> so_num_dim sol = so_num_dim sol0 ->
  writable sol0 t0 num_eqn0 num_aux data0 -> writable sol t num_eqn num_aux data ->
  fs (file_name path prefix "a" frame) = None ->
  solution_write expand fs path prefix 0 true false sol0 = Ok fs1 ->
  solution_write expand fs1 path prefix frame false false sol = Ok fs2 ->
  solution_read expand fs2 path prefix frame fmt true [] = Ok sol' ->
  exists l1 l2, so_states sol0 = l1 ++ l2 /\ length l1 = length (so_states sol) /\
    Forall2 (fun s s' => same_patch (s_patch s) (s_patch s')) (so_states sol) (so_states sol') /\
    Forall2 (fun s0 s' => exists p0 a a', same_patch (s_patch s0) p0 /\ near_patch (s_patch s') p0 /\
               s_aux s0 = Some a /\ s_aux s' = Some a' /\
               same_array num_aux (map d_n (p_dims (s_patch s0))) a a') l1 (so_states sol').
Proof.
  intros Hf He Hn Hdim W0 W Hno E1 E2 E3.
  destruct (write_ok sol0 t0 num_eqn0 num_aux data0 W0 fs path prefix 0 true ltac:(lia))
    as (fs1' & z0 & Hz0 & E1' & _ & _ & _ & Ha1 & Hu1).
  unfold solution_write in E1, E2. rewrite He in E1, E2. rewrite E1 in E1'. assert (fs1' = fs1) by congruence. subst fs1'. clear E1'.
  destruct (write_ok sol t num_eqn num_aux data W fs1 path prefix frame false ltac:(lia))
    as (fs2' & s0 & H0 & E2' & Ht & Hq & Hp & Ha2 & Hu2).
  rewrite E2 in E2'. assert (fs2' = fs2) by congruence. subst fs2'. clear E2'.
  rewrite <- !(C42_reader_and_writer_agree path prefix) in Ht, Hq, Hp.
  pose proof (read_t_ok sol t num_eqn num_aux data W fs2 path prefix frame s0 H0 Ht) as RT.
  assert (CN : (0 <? num_aux)%nat = true) by (apply Nat.ltb_lt; exact Hn).
  rewrite CN in Ha1, Ha2. cbn [andb] in Ha1, Ha2.
  assert (NI : forall f g, (0 <= f)%Z -> (0 <= g)%Z -> f <> g ->
     ~ In (file_name path prefix "a" f) (map (fun k => file_name path prefix k g) kinds)).
  { intros f g P1 P2 Hne Hin. apply in_map_iff in Hin. destruct Hin as (k & Ek & Hk).
    apply file_name_inj in Ek; [|exact Hk|right; right; left; reflexivity|exact P2|exact P1]. lia. }
  assert (A1 : fs2 (read_name path prefix "a" frame) = None).
  { rewrite C42_reader_and_writer_agree, Ha2, Hu1; [exact Hno|]. apply NI; lia. }
  assert (A0 : fs2 (read_name path prefix "a" 0) = Some (TextFile (concat (map a_text (so_states sol0))))).
  { rewrite C42_reader_and_writer_agree, Hu2; [exact Ha1|]. apply NI; lia. }
  rewrite (dispatch expand fs2 path prefix frame fmt true [] _ RT) in E3 by (try exact He; reflexivity).
  destruct (read_states_ok sol t num_eqn num_aux data W) as (new & En & F).
  unfold read in E3. rewrite Hp in E3. cbn [bind] in E3. rewrite RT in E3. cbn [bind] in E3.
  unfold open_text at 1 in E3. rewrite Hq in E3. cbn [bind] in E3.
  replace (Z.to_nat (f_nstates (t_values sol t num_eqn num_aux))) with (length (so_states sol)) in E3
    by (unfold t_values; cbn [f_nstates]; lia).
  rewrite En in E3. cbn [bind] in E3.
  assert (Hnew : Forall (fun s' => s_num_aux s' = num_aux /\ length (p_dims (s_patch s')) = so_num_dim sol) new).
  { assert (K : forall l n, (forall s, In s l -> In s (so_states sol)) -> Forall2 (reread_state t num_eqn num_aux data) l n ->
        Forall (fun s' => s_num_aux s' = num_aux /\ length (p_dims (s_patch s')) = so_num_dim sol) n).
    { intros l n Hl Fl. revert Hl. induction Fl as [|s s' l n (q' & -> & _) _ IH]; intro Hl; constructor.
      - cbn [s_num_aux s_patch reread_patch p_dims]. split; [reflexivity|].
        pose proof (st_len13 _ _ _ _ _ W s (Hl s (or_introl eq_refl))) as S13.
        rewrite reread_dims_length by (cbn [xyz length]; lia).
        apply (st_len _ _ _ _ _ W). apply Hl. left. reflexivity.
      - apply IH. intros x Hx. apply Hl. right. exact Hx. }
    exact (K (so_states sol) new (fun s Hs => Hs) F). }
  destruct new as [|n0 r] eqn:Enew; [discriminate E3|]. rewrite <- Enew in *. cbn [app] in E3.
  pose proof Hnew as Hnew0. rewrite Enew in Hnew0. apply Forall_inv in Hnew0. destruct Hnew0 as (Na & Nd).
  assert (Eapp : (match new with s :: _ => s | [] => n0 end) = n0) by (rewrite Enew; reflexivity).
  rewrite Eapp in E3. rewrite Na, CN in E3. cbn [andb] in E3. rewrite A1, A0 in E3. cbv iota in E3.
  unfold open_text in E3. rewrite A0 in E3. cbn [bind] in E3.
  unfold t_values in E3. cbn [f_num_dim f_num_aux] in E3. rewrite !Nat2Z.id, Hdim in E3.
  destruct (read_aux_states (so_num_dim sol0) num_aux new (lines (concat (map a_text (so_states sol0))))) as [ss'|] eqn:Er; [|discriminate E3].
  cbn [bind] in E3.
  assert (Eso : so_states sol' = ss').
  { apply (f_equal (fun x => match x with Ok y => so_states y | Err _ => [] end)) in E3. cbn beta iota in E3.
    cbn [so_states] in E3. symmetry. exact E3. }
  destruct (read_aux_near sol0 t0 num_eqn0 num_aux data0 W0 Hn (so_states sol0) (fun s K => K) new ss') as (l1 & l2 & El & Ft & Len).
  { eapply Forall_impl; [|exact Hnew]. cbn beta. intros s (_ & K). rewrite <- Hdim. exact K. }
  { exact Er. }
  assert (Lf : length new = length (so_states sol)) by (clear - F; induction F; cbn [length]; lia).
  rewrite Eso. exists l1, l2. split; [exact El|].
  assert (Lc : length (combine new ss') = length new) by (rewrite combine_length, Len; apply Nat.min_id).
  split; [|split].
  - rewrite <- Lf, <- Lc. clear - Ft. induction Ft; cbn [length]; congruence.
  - assert (K : forall l n s1 c, (forall s, In s l -> In s (so_states sol)) -> Forall2 (reread_state t num_eqn num_aux data) l n ->
       Forall2 (fun s0 p => taken num_aux s0 (fst p) (snd p)) c (combine n s1) -> length s1 = length n ->
       Forall2 (fun s s' => same_patch (s_patch s) (s_patch s')) l s1).
    { intros l n s1 c Hl Fl. revert s1 c Hl. induction Fl as [|s s' l n (q' & -> & _) _ IH]; intros s1 c Hl Fc Ls.
      - destruct s1; [constructor|discriminate Ls].
      - destruct s1 as [|x s1]; [discriminate Ls|]. cbn [combine] in Fc. inversion Fc as [|c0 ? c1 ? Tk Fc1]; subst. constructor.
        + destruct Tk as (p0 & a & a' & _ & _ & _ & _ & Ex). cbn [fst snd] in Ex. rewrite Ex. cbn [s_patch].
          pose proof (nd_range _ _ _ _ _ W) as N.
          assert (Hs : In s (so_states sol)) by (apply Hl; left; reflexivity).
          apply (same_patch_reread _ (so_num_dim sol)); [exact (st_len _ _ _ _ _ W s Hs)|lia|exact (st_valid _ _ _ _ _ W s Hs)].
        + apply (IH s1 c1); [intros y Hy; apply Hl; right; exact Hy|exact Fc1|injection Ls as Ls; exact Ls]. }
    exact (K (so_states sol) new ss' l1 (fun s Hs => Hs) F Ft Len).
  - clear - Ft Len. revert ss' new Ft Len. induction l1 as [|s0 l1 IH]; intros ss' new Ft Len.
    + destruct ss' as [|x ss'], new as [|y new]; try discriminate Len; [constructor|]. inversion Ft.
    + destruct ss' as [|x ss'], new as [|y new]; try discriminate Len; [inversion Ft|]. cbn [combine] in Ft.
      inversion Ft as [|? ? ? ? Tk Ft1]; subst. constructor; [|apply (IH ss' new Ft1); injection Len as Len; exact Len].
      destruct Tk as (p0 & a & a' & T1 & T2 & T3 & T4 & T5). cbn [fst snd] in *. exists p0, a, a'.
      rewrite T5. cbn [s_patch s_aux]. exact (conj T1 (conj T2 (conj T3 (conj eq_refl T4)))).
Qed.
Print Assumptions C126_same_patches_partial.

(** Two domains of width 1e-9 that do not overlap: the auxiliary array of one is taken for the other *)
Definition tiny (lo : Z) (v : Q) : @solution Z :=
  mkSolution [mkState (mkPatch 1 1 [mkDimn (lo # 1000000000) ((lo + 1)%Z # 1000000000) 2 (lit "x")]) 0 1 (fun _ _ => v) 0 None 1
    (Some (fun _ _ => v)) None] 1.
Lemma small_range (m : Z) : In m [1; 2]%Z -> double_range (inject_Z m).
Proof. intros [<-|[<-|[]]]; apply double_range_dec; vm_compute; reflexivity. Qed.
Lemma tiny_writable lo v : In v [1; 2]%Z -> writable (tiny lo (inject_Z v)) 0 1 1 None.
Proof.
  intro Hv. constructor; try (cbn; lia); [discriminate|]. constructor; [|constructor]. constructor; try reflexivity.
  - constructor; [reflexivity|]. constructor; [|constructor]. cbn [d_n d_lower d_upper d_name]. split; [lia|].
    split; [unfold Qlt; cbn [Qnum Qden]; nia|]. intros [K|[]]; discriminate K.
  - intros m ix _ _. apply small_range. exact Hv.
  - intros _. eexists. split; [reflexivity|]. intros m ix _ _. apply small_range. exact Hv.
Qed.
Theorem C126_same_patches_refuted : exists (fs fs1 fs2 : @files Z) path prefix sol0 sol sol' a,
  writable sol0 0 1 1 None /\ writable sol 0 1 1 None /\ fs (file_name path prefix "a" 1) = None /\
  solution_write (fun x => x) fs path prefix 0 true false sol0 = Ok fs1 /\
  solution_write (fun x => x) fs1 path prefix 1 false false sol = Ok fs2 /\
  solution_read (fun x => x) fs2 path prefix 1 None true [] = Ok sol' /\
  map (fun s => map (fun d => (d_lower d, d_upper d)) (p_dims (s_patch s))) (so_states sol0) = [[(0 # 1000000000, 1 # 1000000000)]] /\
  map (fun s => map (fun d => (d_lower d, d_upper d)) (p_dims (s_patch s))) (so_states sol) = [[(5 # 1000000000, 6 # 1000000000)]] /\
  map s_aux (so_states sol') = [Some a] /\ a 0%Z [0%Z] == 2.
Proof.
  pose (w1 := match solution_write (fun x => x) no_files (lit "o") (lit "fort") 0 true false (tiny 0 2) with Ok f => f | Err _ => no_files end).
  pose (w2 := match solution_write (fun x => x) w1 (lit "o") (lit "fort") 1 false false (tiny 5 1) with Ok f => f | Err _ => no_files end).
  assert (K : match solution_read (fun x => x) w2 (lit "o") (lit "fort") 1 None true [] with
              | Ok b => match so_states b with
                        | [s] => match s_aux s with Some a => qeqb (a 0%Z [0%Z]) 2 | None => false end
                        | _ => false end
              | Err _ => false end = true) by (vm_compute; reflexivity).
  destruct (solution_read (fun x => x) w2 (lit "o") (lit "fort") 1 None true []) as [b|] eqn:Eb; [|discriminate K].
  destruct (so_states b) as [|s [|]] eqn:Sb; try discriminate K. destruct (s_aux s) as [a|] eqn:Ea; [|discriminate K].
  apply qeqb_eq in K.
  exists no_files, w1, w2, (lit "o"), (lit "fort"), (tiny 0 2), (tiny 5 1), b, a.
  split; [exact (tiny_writable 0 2 (or_intror (or_introl eq_refl)))|].
  split; [exact (tiny_writable 5 1 (or_introl eq_refl))|].
  split; [reflexivity|]. split; [reflexivity|]. split; [reflexivity|]. split; [exact Eb|].
  split; [reflexivity|]. split; [reflexivity|]. split; [|exact K]. rewrite Sb. cbn [map]. rewrite Ea. reflexivity.
Qed.
Print Assumptions C126_same_patches_refuted.

(** The hypotheses hold for the solution of C40, whose patches do match, *)
Example C126_case : so_num_dim demo_sol = so_num_dim demo_sol /\ (0 < 1)%nat /\ writable demo_sol (1 # 7) 2 1 (Some 5%Z).
Proof. split; [reflexivity|]. split; [lia|exact C40_case]. Qed.
(** and a frame of another grid is refused. *)
Definition wide (hi : Z) : @solution Z :=
  mkSolution [mkState (mkPatch 1 1 [mkDimn 0 (inject_Z hi) 2 (lit "x")]) 0 1 (fun _ _ => 1) 0 None 1 (Some (fun _ _ => 2)) None] 1.
Example C126_refused :
  match solution_write (fun x => x) no_files (lit "o") (lit "fort") 0 true false (wide 1) with
  | Ok f => match solution_write (fun x => x) f (lit "o") (lit "fort") 1 false false (wide 3) with
            | Ok g => match solution_read (fun x => x) g (lit "o") (lit "fort") 1 None true [] with
                      | Err AssertFails => true | _ => false end
            | Err _ => false end
  | Err _ => false end = true.
Proof. vm_compute. reflexivity. Qed.
