(** Restarting: the steps of the solvers, and the files. *)
From Coq Require Import Ascii String Permutation.
From Verif Require Import Base TimeModel TimeSpec TimeProofs TimeProofs2 FormatModel HdfModel HdfSpec HdfProofs HdfProps.
From Verif Require Import ControllerModel ControllerSpec ControllerProofs ControllerProps SymProofs RestartModel RestartSpec RestartProofs RestartProofs2.

(** ** The steps *)
Lemma clip_dt {E} t ts te te2 (s s2 : solver E) : same_time te te2 -> dt s = dt s2 ->
  dt (get_dt_clip t ts te s) = dt (get_dt_clip t ts te2 s2).
Proof.
  intros T D. unfold get_dt_clip. destruct te as [x|], te2 as [y|]; try contradiction; [|exact D]. cbn [same_time] in T. rewrite <- D.
  rewrite (qltb_m x y (t + dt s) (t + dt s)) by (try exact T; reflexivity). rewrite (qltb_m ts ts x y) by (try exact T; reflexivity).
  assert (Q1 : Qred (x - t) = Qred (y - t)) by (apply Qred_complete; rewrite T; reflexivity).
  assert (H : forall a b : solver E, dt a = dt b ->
    dt (if qltb (x - t - dt a) (eps14 * t) then set_dt (Qred (x - t)) a else a) =
    dt (if qltb (y - t - dt b) (eps14 * t) then set_dt (Qred (y - t)) b else b)).
  { intros a b Hab. rewrite Hab. rewrite (qltb_m (x - t - dt b) (y - t - dt b) (eps14 * t) (eps14 * t)) by (try rewrite T; reflexivity).
    destruct (qltb _ _); [exact Q1|exact Hab]. }
  apply H. destruct (_ && _)%bool; [exact Q1|exact D].
Qed.
Lemma choose_fixed {E} new (s : solver E) : dt_variable s = false -> get_dt_choose new s = set_dt_old (Some (dt s)) s.
Proof. intros H. unfold get_dt_choose. rewrite H. reflexivity. Qed.
Lemma clip_rest {E} t ts te (s : solver E) : cfl (get_dt_clip t ts te s) = cfl s /\ cfl_max (get_dt_clip t ts te s) = cfl_max s /\
  dt_old (get_dt_clip t ts te s) = dt_old s /\ ext (get_dt_clip t ts te s) = ext s.
Proof. unfold get_dt_clip. destruct te; [|repeat split]. cbv zeta. destruct (_ && _)%bool; destruct (qltb _ _); repeat split. Qed.

Section Classic.
Context {DQ DX E : Type} (src : option (Q -> sol DQ DX -> DQ * DX)) (hyp : Q -> sol DQ DX -> DQ * DX * Q) (sp : Z).
Lemma classic_agree ts te te2 (s s2 : solver E) (so : sol DQ DX) : agree false s s2 -> same_time te te2 ->
  snd (classic_step src hyp sp ts te s so) = snd (classic_step src hyp sp ts te2 s2 so) /\
  dt (fst (classic_step src hyp sp ts te s so)) = dt (fst (classic_step src hyp sp ts te2 s2 so)) /\
  cfl (fst (classic_step src hyp sp ts te s so)) = cfl (fst (classic_step src hyp sp ts te2 s2 so)).
Proof.
  intros ((A1 & A2 & A3 & A4) & _) T. unfold classic_step, get_dt. rewrite !choose_fixed by assumption.
  assert (D : dt (get_dt_clip (st so) ts te (set_dt_old (Some (dt s)) s)) = dt (get_dt_clip (st so) ts te2 (set_dt_old (Some (dt s2)) s2)))
    by (apply clip_dt; [exact T|symmetry; exact A3]).
  destruct (clip_rest (st so) ts te (set_dt_old (Some (dt s)) s)) as (_ & M1 & _).
  destruct (clip_rest (st so) ts te2 (set_dt_old (Some (dt s2)) s2)) as (_ & M2 & _).
  set (g := get_dt_clip _ _ te _) in *. set (g2 := get_dt_clip _ _ te2 _) in *. cbn [set_dt_old cfl_max] in M1, M2. cbv zeta.
  change (dt (set_cfl 0 g)) with (dt g). change (dt (set_cfl 0 g2)) with (dt g2). rewrite <- D.
  set (so1 := match src with Some _ => _ | None => so end).
  destruct (hyp (dt g) so1) as [[q2 x2] k]. cbn [set_cfl cfl_max cfl]. rewrite M1, M2, A4.
  destruct (qleb (cfl_max s) (pymax 0 k)); [repeat split; exact D|].
  destruct src as [f|]; [|repeat split; exact D]. cbn [set_cfl dt]. rewrite <- D.
  destruct (sp =? 2)%Z; [|destruct (sp =? 1)%Z]; repeat split; exact D.
Qed.
Lemma classic_fixed_dt ts te (s : solver E) (so : sol DQ DX) : dt_variable s = false -> ready false s ->
  dt (fst (classic_step src hyp sp ts te s so)) = dt (get_dt_clip (st so) ts te s).
Proof.
  intros V _. destruct (classic_step src hyp sp ts te s so) as [s' so'] eqn:K. destruct (classic_dt src hyp sp _ _ _ _ _ _ K) as (D & _).
  cbn [fst]. rewrite D. unfold get_dt. rewrite choose_fixed by exact V. apply clip_dt; [|reflexivity].
  destruct te; cbn; [reflexivity|exact I].
Qed.
End Classic.

Section Sharp.
Context {DQ DX : Type} (slope : Q -> sol DQ DX -> DQ * DX * Q) (stages : Q -> DQ -> sol DQ DX -> DQ * DX * Q).
Lemma sharp_agree ts te te2 (s s2 : solver DQ) (so : sol DQ DX) : agree true s s2 -> same_time te te2 ->
  snd (sharp_step slope stages ts te s so) = snd (sharp_step slope stages ts te2 s2 so) /\
  dt (fst (sharp_step slope stages ts te s so)) = dt (fst (sharp_step slope stages ts te2 s2 so)) /\
  cfl (fst (sharp_step slope stages ts te s so)) = cfl (fst (sharp_step slope stages ts te2 s2 so)).
Proof.
  intros ((A1 & A2 & A3 & A4) & R1 & R2) T. unfold sharp_step. rewrite (R1 eq_refl), (R2 eq_refl), A3.
  destruct (slope (dt s) so) as [[k x1] c]. cbv zeta. cbn [st]. unfold get_dt.
  rewrite !choose_fixed by (cbn; assumption). cbn [set_ext set_cfl dt]. rewrite A3.
  set (a := set_dt_old _ (set_ext k (set_cfl _ s))). set (a2 := set_dt_old _ (set_ext k (set_cfl _ s2))).
  assert (D : dt (get_dt_clip (st so) ts te a) = dt (get_dt_clip (st so) ts te2 a2)) by (apply clip_dt; [exact T|symmetry; exact A3]).
  destruct (clip_rest (st so) ts te a) as (K1 & _ & K2 & K3). destruct (clip_rest (st so) ts te2 a2) as (L1 & _ & L2 & L3).
  set (g := get_dt_clip _ _ te _) in *. set (g2 := get_dt_clip _ _ te2 _) in *.
  change (cfl a) with (pymax 0 c) in K1. change (cfl a2) with (pymax 0 c) in L1. change (dt_old a) with (Some (dt s)) in K2.
  change (dt_old a2) with (Some (dt s)) in L2. change (ext a) with k in K3. change (ext a2) with k in L3.
  cbn [set_dt_old set_cfl dt ext cfl]. unfold dt_old_val. rewrite K1, K2, K3, L1, L2, L3, <- D.
  destruct (stages (dt g) k _) as [[q' x'] c']. cbn [fst snd dt cfl]. repeat split. exact D.
Qed.
Lemma sharp_fixed_dt ts te (s : solver DQ) (so : sol DQ DX) : dt_variable s = false -> ready true s ->
  dt (fst (sharp_step slope stages ts te s so)) = dt (get_dt_clip (st so) ts te s).
Proof.
  intros V _. destruct (sharp_step slope stages ts te s so) as [s' so'] eqn:K.
  destruct (sharp_dt slope stages _ _ _ _ _ _ K) as (s1 & P1 & D1 & _ & _ & D & _). destruct P1 as (V1 & _).
  cbn [fst]. rewrite D. unfold get_dt. rewrite choose_fixed by congruence. apply clip_dt; [|exact D1].
  destruct te; cbn; [reflexivity|exact I].
Qed.
End Sharp.

(** ** The files *)
Section Files.
Context {P F : Type} (path prefix : text) (pa : patch).
Notation out := (output array (option array) P F).
Definition content (aux : bool) (u : sol array (option array)) : file := [(group_name (state_of pa u), stored aux (state_of pa u))].
Fixpoint entries (outs : list out) : list (text * file) :=
  match outs with
  | [] => []
  | WriteQ n aux u :: r => (file_name path prefix n, content aux u) :: entries r
  | _ :: r => entries r
  end.
Definition put1 (e : text * file) (fs : files) : files := fun n => if text_eqb n (fst e) then Some (snd e) else fs n.
Fixpoint puts (l : list (text * file)) (fs : files) : files :=
  match l with [] => fs | e :: r => puts r (put1 e fs) end.
Lemma entries_app a b : entries (a ++ b) = entries a ++ entries b.
Proof. induction a as [|[n u p|n x u|n t v] a IH]; cbn [app entries]; rewrite ?IH; reflexivity. Qed.
Lemma save_puts : forall outs fs, save path prefix pa outs fs = Ok (puts (entries outs) fs).
Proof. induction outs as [|[n u p|n x u|n t v] a IH]; intros fs; cbn [save entries puts]; [reflexivity|apply IH| |apply IH]. apply IH. Qed.
Lemma puts_out : forall l fs n, ~ In n (map fst l) -> puts l fs n = fs n.
Proof.
  induction l as [|e l IH]; intros fs n H; cbn [puts map In] in *; [reflexivity|]. rewrite IH by tauto. unfold put1.
  destruct (text_eqb n (fst e)) eqn:K; [|reflexivity]. apply text_eqb_true in K. subst n. tauto.
Qed.
Lemma puts_in : forall l fs n f, NoDup (map fst l) -> In (n, f) l -> puts l fs n = Some f.
Proof.
  induction l as [|e l IH]; intros fs n f ND H; cbn [puts map] in *; [contradiction|]. apply NoDup_cons_iff in ND. destruct ND as (N1 & N2).
  destruct H as [->|H]; [|apply IH; assumption]. rewrite puts_out by exact N1. unfold put1. cbn [fst snd]. rewrite text_eqb_refl. reflexivity.
Qed.
(** Frames n, n+1, ... *)
Fixpoint numbered (n : Z) (us : list (sol array (option array))) : list (text * file) :=
  match us with [] => [] | u :: r => (file_name path prefix n, content true u) :: numbered (n + 1) r end.
Lemma content_aux aux u : aux = true \/ sx u = None -> content aux u = content true u.
Proof. intros [->|H]; [reflexivity|]. unfold content, stored, state_of. cbn [s_aux]. rewrite H. reflexivity. Qed.
Section Run.
Variable c : controller array (option array) P F.
Hypothesis HO : c_output c = true.
Lemma entries_frame n first u : c_aux_always c = true \/ sx u = None ->
  entries (frame_files c n first u) = [(file_name path prefix n, content true u)].
Proof.
  intros H. unfold frame_files. rewrite HO. destruct (c_p c), (c_F c); cbn [app entries];
    rewrite content_aux by (destruct H as [->|H]; [left; reflexivity|right; exact H]); reflexivity.
Qed.
Lemma entries_later : forall us n, Forall (fun u => c_aux_always c = true \/ sx u = None) us -> entries (later_files c n us) = numbered n us.
Proof.
  induction us as [|u us IH]; intros n H; cbn [later_files numbered]; [reflexivity|]. apply Forall_cons_iff in H. destruct H as (H1 & H2).
  rewrite entries_app, entries_frame, IH by assumption. reflexivity.
Qed.
Lemma entries_run n u0 us : Forall (fun u => c_aux_always c = true \/ sx u = None) (u0 :: us) -> entries (run_files c n u0 us) = numbered n (u0 :: us).
Proof.
  intros H. apply Forall_cons_iff in H. destruct H as (H1 & H2). unfold run_files.
  rewrite entries_app, entries_frame, entries_later by assumption. reflexivity.
Qed.
End Run.
Lemma numbered_in : forall us n x, In x (numbered n us) <-> exists i u, nth_error us i = Some u /\ x = (file_name path prefix (n + Z.of_nat i), content true u).
Proof.
  induction us as [|u us IH]; intros n x; cbn [numbered In].
  - split; [contradiction|]. intros (i & u & H & _). destruct i; discriminate.
  - rewrite IH. split.
    + intros [<-|(i & v & H1 & ->)].
      * exists 0%nat, u. split; [reflexivity|]. rewrite Z.add_0_r. reflexivity.
      * exists (S i), v. split; [exact H1|]. do 2 f_equal. lia.
    + intros ([|i] & v & H1 & ->); [left|right].
      * cbn in H1. injection H1 as ->. rewrite Z.add_0_r. reflexivity.
      * exists i, v. split; [exact H1|]. do 2 f_equal. lia.
Qed.
Lemma numbered_nodup : forall us n, (0 <= n)%Z -> NoDup (map fst (numbered n us)).
Proof.
  induction us as [|u us IH]; intros n Hn; cbn [numbered map]; constructor; [|apply IH; lia].
  intros K. apply in_map_iff in K. destruct K as (x & E & K). apply numbered_in in K. destruct K as (i & v & _ & ->). cbn [fst] in E.
  apply file_name_frames in E; lia.
Qed.
Lemma numbered_app : forall a b n, numbered n (a ++ b) = numbered n a ++ numbered (n + Z.of_nat (length a)) b.
Proof.
  induction a as [|u a IH]; intros b n; cbn [numbered app length]; [rewrite Z.add_0_r; reflexivity|]. rewrite IH. do 3 f_equal. lia.
Qed.
Lemma numbered_length : forall a n, length (numbered n a) = length a.
Proof. induction a as [|u a IH]; intros n; cbn [numbered length]; [reflexivity|]. rewrite IH. reflexivity. Qed.
Lemma numbered_split : forall l n a b, numbered n l = a ++ b ->
  exists l1 l2, l = l1 ++ l2 /\ a = numbered n l1 /\ b = numbered (n + Z.of_nat (length l1)) l2.
Proof.
  intros l n a b H. exists (firstn (length a) l), (skipn (length a) l). split; [symmetry; apply firstn_skipn|].
  assert (La : length (firstn (length a) l) = length a).
  { rewrite firstn_length. apply (f_equal (@length _)) in H. rewrite numbered_length, app_length in H. lia. }
  rewrite <- (firstn_skipn (length a) l) in H at 1. rewrite numbered_app in H.
  assert (K : length (numbered n (firstn (length a) l)) = length a) by (rewrite numbered_length; exact La).
  clear - H K. revert H K. generalize (numbered n (firstn (length a) l)). generalize (numbered (n + Z.of_nat (length (firstn (length a) l))) (skipn (length a) l)).
  revert a b. induction a as [|x a IH]; intros b y z H K; destruct z as [|v z]; cbn [length app] in *; try discriminate.
  - split; [reflexivity|]. symmetry. exact H.
  - injection H as -> H. destruct (IH b y z H) as (H1 & H2); [congruence|]. rewrite <- H1. split; [reflexivity|exact H2].
Qed.
Lemma written_entries : forall outs, map fst (entries outs) = map (fun x => file_name path prefix (fst x)) (frames_written outs).
Proof. induction outs as [|[n u p|n x u|n t v] a IH]; cbn [entries frames_written map fst]; rewrite ?IH; reflexivity. Qed.

Lemma entries_in n aux u : forall outs, In (WriteQ n aux u) outs -> In (file_name path prefix n, content aux u) (entries outs).
Proof. induction outs as [|[m v p|m x v|m t v] a IH]; cbn [entries In]; [contradiction| | |]; intros [H|H]; try discriminate; try (injection H as <- <- <-; left; reflexivity); try right; apply IH, H. Qed.
Lemma nth_numbered us n i v f : (0 <= n)%Z -> nth_error us i = Some v -> In (file_name path prefix (n + Z.of_nat i), f) (numbered n us) -> f = content true v.
Proof.
  intros Hn H K. apply numbered_in in K. destruct K as (k & w & H1 & E0). pose proof (f_equal fst E0) as E. pose proof (f_equal snd E0) as Ef. cbn [fst snd] in E, Ef. subst f. apply file_name_frames in E; [|lia|lia].
  replace k with i in H1 by lia. congruence.
Qed.
(** Everything about the disk: the frame is there, and writing it and the later ones again completes the directory *)
Lemma disk_restart l n j u outs fs fs' : (0 <= n)%Z -> entries outs = numbered n l -> nth_error l j = Some u ->
  crashed_after path prefix pa outs fs fs' (n + Z.of_nat j) u ->
  fs' (file_name path prefix (n + Z.of_nat j)) = Some (content true u) /\
  forall outs2, entries outs2 = numbered (n + Z.of_nat j) (skipn j l) ->
  exists fs1 fs2, save path prefix pa outs fs = Ok fs1 /\ save path prefix pa outs2 fs' = Ok fs2 /\ forall name, fs2 name = fs1 name.
Proof.
  intros Hn HE Hj (done & rest & fs1 & aux & -> & HS & HI & HC). rewrite save_puts in HS. injection HS as <-.
  rewrite entries_app in HE. destruct (numbered_split l n _ _ (eq_sym HE)) as (l1 & l2 & -> & E1 & E2).
  apply entries_in in HI. rewrite E1 in HI.
  pose proof HI as HI2. apply numbered_in in HI2. destruct HI2 as (i & v & Hi & E0). pose proof (f_equal fst E0) as E. pose proof (f_equal snd E0) as Ec. cbn [fst snd] in E, Ec. clear E0.
  apply file_name_frames in E; [|lia|lia]. assert (i = j) by lia. subst i.
  assert (Lj : (j < length l1)%nat) by (apply nth_error_Some; congruence).
  rewrite nth_error_app1 in Hj by exact Lj. assert (v = u) by congruence. subst v.
  assert (Keep : forall name, (forall m, (length l1 <= m)%nat -> name <> file_name path prefix (n + Z.of_nat m)) \/
      ~ In name (map fst (numbered n (l1 ++ l2))) -> fs' name = puts (entries done) fs name).
  { intros name Hname. destruct rest as [|[m w p|m x w|m t w] rest]; try (rewrite HC; reflexivity). apply HC. intros ->.
    cbn [entries] in E2. destruct l2 as [|v2 l2]; [discriminate E2|]. cbn [numbered] in E2. injection E2 as E2 _.
    destruct Hname as [Hname|Hname].
    - apply (Hname (length l1) (Nat.le_refl _)). exact E2.
    - apply Hname. rewrite E2, numbered_app, map_app, in_app_iff. right. cbn [numbered map fst In]. left. reflexivity. }
  split.
  - rewrite Keep.
    + rewrite E1. apply puts_in; [apply numbered_nodup; exact Hn|]. rewrite <- Ec. exact HI.
    + left. intros m Hm K. apply file_name_frames in K; lia.
  - intros outs2 H2. rewrite !save_puts. eexists. eexists. split; [reflexivity|]. split; [reflexivity|]. intros name.
    rewrite H2, entries_app, HE. 
    assert (ND : NoDup (map fst (numbered n (l1 ++ l2)))) by (apply numbered_nodup; exact Hn).
    assert (ND2 : NoDup (map fst (numbered (n + Z.of_nat j) (skipn j (l1 ++ l2))))) by (apply numbered_nodup; lia).
    destruct (in_dec (list_eq_dec ascii_dec) name (map fst (numbered n (l1 ++ l2)))) as [In1|Out1].
    + apply in_map_iff in In1. destruct In1 as ([x f] & <- & In1). cbn [fst].
      rewrite (puts_in _ fs x f ND In1). pose proof In1 as In2. apply numbered_in in In2. destruct In2 as (i & v & Hi2 & E0). pose proof (f_equal fst E0) as Ex2. pose proof (f_equal snd E0) as Ec2. cbn [fst snd] in Ex2, Ec2. clear E0. subst x f.
      destruct (Nat.le_gt_cases j i) as [Hij|Hij].
      * apply puts_in; [exact ND2|]. apply numbered_in. exists (i - j)%nat, v. split.
        { rewrite nth_skip. replace (j + (i - j))%nat with i by lia. exact Hi2. }
        { do 2 f_equal. lia. }
      * rewrite puts_out.
        { rewrite Keep.
          - rewrite E1. apply puts_in; [apply numbered_nodup; exact Hn|]. apply numbered_in. exists i, v.
            rewrite nth_error_app1 in Hi2 by lia. split; [exact Hi2|reflexivity].
          - left. intros m Hm K. apply file_name_frames in K; lia. }
        { intros K. apply in_map_iff in K. destruct K as (y & Ey & K). apply numbered_in in K. destruct K as (k & w & _ & ->). cbn [fst] in Ey.
          apply file_name_frames in Ey; lia. }
    + rewrite (puts_out (numbered n (l1 ++ l2)) fs name Out1). rewrite puts_out.
      * rewrite Keep by (right; exact Out1). rewrite E1. apply puts_out. intros K. apply Out1. rewrite numbered_app, map_app, in_app_iff. left. exact K.
      * intros K. apply Out1. apply in_map_iff in K. destruct K as (y & Ey & K). apply in_map_iff. exists y. split; [exact Ey|].
        apply numbered_in in K. destruct K as (k & w & K & ->). apply numbered_in. exists (j + k)%nat, w. rewrite nth_skip in K. split; [exact K|]. do 2 f_equal. lia.
Qed.
Lemma read_content fs n u : storable (state_of pa u) -> fs (file_name path prefix n) = Some (content true u) ->
  solution_read fs path (Prefix prefix) n true = Ok [state_of pa u].
Proof.
  intros HS E. unfold solution_read, read. rewrite E. unfold content. cbn [read_groups].
  rewrite (read_group_back true true (state_of pa u) HS). cbn [bind app]. unfold back, state_of. cbn [andb s_patch s_t s_q s_aux].
  destruct (sx u); reflexivity.
Qed.
Lemma frames_later (c : controller array (option array) P F) : c_output c = true -> forall us n m u,
  In (m, u) (frames_written (later_files c n us)) <-> exists i, m = (n + Z.of_nat i)%Z /\ nth_error us i = Some u.
Proof.
  intros HO. induction us as [|v us IH]; intros n m u; cbn [later_files].
  - cbn. split; [contradiction|]. intros ([|i] & _ & H); discriminate.
  - assert (K : frames_written (frame_files c n false v ++ later_files c (n + 1) us) = (n, v) :: frames_written (later_files c (n + 1) us)).
    { unfold frame_files. rewrite HO. destruct (c_p c), (c_F c); reflexivity. }
    rewrite K. cbn [In]. rewrite IH. split.
    + intros [E|(i & -> & H)]; [injection E as <- <-; exists 0%nat; split; [lia|reflexivity]|]. exists (S i). split; [lia|exact H].
    + intros ([|i] & -> & H); [left; cbn in H; injection H as ->; f_equal; lia|]. right. exists i. split; [lia|exact H].
Qed.
Lemma frames_run (c : controller array (option array) P F) n u0 us m u : c_output c = true ->
  In (m, u) (frames_written (run_files c n u0 us)) <-> exists i, m = (n + Z.of_nat i)%Z /\ nth_error (u0 :: us) i = Some u.
Proof.
  intros HO. assert (K : frames_written (run_files c n u0 us) = (n, u0) :: frames_written (later_files c (n + 1) us)).
  { unfold run_files, frame_files. rewrite HO. destruct (c_p c), (c_F c); reflexivity. }
  rewrite K. cbn [In]. rewrite frames_later by exact HO. split.
  - intros [E|(i & -> & H)]; [injection E as <- <-; exists 0%nat; split; [lia|reflexivity]|]. exists (S i). split; [lia|exact H].
  - intros ([|i] & -> & H); [left; cbn in H; injection H as ->; f_equal; lia|]. right. exists i. split; [lia|exact H].
Qed.
Lemma written_in outs n aux (u : sol array (option array)) : In (WriteQ n aux u) outs -> In (n, u) (frames_written (P := P) (F := F) outs).
Proof. induction outs as [|[m v p|m x v|m t v] a IH]; cbn [frames_written In]; [contradiction| | |]; intros [H|H]; try discriminate; try (injection H as <- <- <-; left; reflexivity); try right; apply IH, H. Qed.
Lemma no_output (c : controller array (option array) P F) n u0 us : c_output c = false -> frames_written (run_files c n u0 us) = [].
Proof.
  intros HO. unfold run_files, frame_files. rewrite HO. cbn [app].
  assert (K : forall us n, frames_written (later_files c n us) = []).
  { induction us0 as [|v us0 IH]; intros k; cbn [later_files]; [reflexivity|]. unfold frame_files. rewrite HO. destruct (c_F c); cbn [app frames_written]; apply IH. }
  destruct (c_F c); cbn [app frames_written]; apply K.
Qed.
End Files.

(** ** Both together *)
Section All.
Context {E P F : Type}.
Notation DQ := array. Notation DX := (option array).
Variable stepf : Q -> option Q -> solver E -> sol DQ DX -> solver E * sol DQ DX.
Variable before : sol DQ DX -> DQ * DX.
Variable need : bool.
Hypothesis frame : step_frame stepf.
Hypothesis Hstep : forall ts te te2 s s2 so, agree need s s2 -> same_time te te2 ->
  snd (stepf ts te s so) = snd (stepf ts te2 s2 so) /\ dt (fst (stepf ts te s so)) = dt (fst (stepf ts te2 s2 so)) /\
  cfl (fst (stepf ts te s so)) = cfl (fst (stepf ts te2 s2 so)).
Hypothesis Hdt : forall ts te s so, dt_variable s = false -> ready need s ->
  dt (fst (stepf ts te s so)) = dt (get_dt_clip (st so) ts te s).
Notation evolve := (evolve_to_time stepf accept_reject_step before).
Context (setup : solver E -> solver E) (valid : solver E -> sol DQ DX -> bool).
Context (path prefix : text) (pa : patch).
Theorem restart_all (c c2 : controller DQ DX P F) (w w' w2 : world DQ DX E P F) outs j u later fs fs' :
  acceptable c w -> valid (first_solver setup w) (w_sol w) = true ->
  run evolve setup valid c w = (w', None) -> w_out w' = w_out w ++ outs -> kept_whole pa c outs ->
  crashed_after path prefix pa outs fs fs' (w_start w + Z.of_nat j) u ->
  In later (map fst (frames_written outs)) -> (w_start w + Z.of_nat j < later)%Z ->
  agree need (first_solver setup w) (first_solver setup w2) -> fits c (dt (first_solver setup w)) (st (w_sol w)) -> rest_of j c c2 ->
  solution_read fs' path (Prefix prefix) (w_start w + Z.of_nat j) true = Ok [state_of pa u] /\
  (w_sol w2 = u -> w_start w2 = (w_start w + Z.of_nat j)%Z -> valid (first_solver setup w2) (w_sol w2) = true ->
   (c_output c2 = true -> w_dir w2 = true -> c_overwrite c2 = true) ->
   exists w2' outs2 fs1 fs2, run evolve setup valid c2 w2 = (w2', None) /\ w_out w2' = w_out w2 ++ outs2 /\ w_sol w2' = w_sol w' /\
     save path prefix pa outs fs = Ok fs1 /\ save path prefix pa outs2 fs' = Ok fs2 /\ (forall name, fs2 name = fs1 name) /\
     exists us, outs = run_files c (w_start w) (w_sol w) us /\ outs2 = run_files c2 (w_start w2) u (skipn j us) /\ nth_error (w_sol w :: us) j = Some u).
Proof.
  intros HA HV HRun HOut HK HC HL1 HL2 AG HF HR.
  assert (HI : In (w_start w + Z.of_nat j, u)%Z (frames_written outs)).
  { destruct HC as (done & rest & fs1 & aux & -> & _ & HI & _). rewrite ControllerProps.frames_written_app. apply in_app_iff. left. exact (written_in _ _ _ _ HI). }
  assert (EX : exists us, outs = run_files c (w_start w) (w_sol w) us).
  { destruct (run_spec evolve setup valid c w w' None HA HV HRun) as (blocks & k & _ & _ & _ & Q4 & _). eexists. rewrite HOut in Q4. exact (app_inv_head _ _ _ Q4). }
  destruct EX as (us & EO).
  assert (HO : c_output c = true).
  { destruct (c_output c) eqn:K; [reflexivity|]. rewrite EO, no_output in HI by exact K. contradiction. }
  pose proof HI as Hj. rewrite EO, frames_run in Hj by exact HO. destruct Hj as (i & Ei & Hj). assert (i = j) by lia. subst i.
  assert (Hn : (0 <= w_start w)%Z).
  { apply (HK (w_start w) (w_sol w)). rewrite EO, frames_run by exact HO. exists 0%nat. split; [lia|reflexivity]. }
  assert (HAux : Forall (fun v => c_aux_always c = true \/ sx v = None) (w_sol w :: us)).
  { apply Forall_forall. intros v Hv. apply In_nth_error in Hv. destruct Hv as (i & Hi).
    apply (HK (w_start w + Z.of_nat i)%Z v). rewrite EO, frames_run by exact HO. exists i. split; [reflexivity|exact Hi]. }
  assert (HE : entries path prefix pa outs = numbered path prefix pa (w_start w) (w_sol w :: us)) by (rewrite EO; apply entries_run; assumption).
  destruct (disk_restart path prefix pa _ _ _ _ _ _ _ Hn HE Hj HC) as (D1 & D2). split.
  - apply read_content; [|exact D1]. apply (HK _ _ HI).
  - intros E2 ES HV2 HO2.
    destruct (restart_run stepf before need frame Hstep Hdt setup valid c c2 w w' w2 j HA HV HRun AG HF HR HV2 HO2 ES) as (us' & O1 & K).
    assert (us' = us).
    { rewrite HOut, EO in O1. apply app_inv_head in O1.
      clear - O1 HO. assert (G : forall l, map snd (frames_written (run_files c (w_start w) (w_sol w) l)) = w_sol w :: l).
      { intros l. assert (H : forall l n, map snd (frames_written (later_files c n l)) = l).
        { induction l0 as [|v l0 IH]; intros n; cbn [later_files]; [reflexivity|]. unfold frame_files. rewrite HO.
          destruct (c_p c), (c_F c); cbn [app frames_written map snd]; rewrite IH; reflexivity. }
        unfold run_files, frame_files. rewrite HO. destruct (c_p c), (c_F c); cbn [app frames_written map snd]; rewrite H; reflexivity. }
      apply (f_equal (fun o => map snd (frames_written o))) in O1. rewrite !G in O1. congruence. }
    subst us'.
    assert (Lj : (j < length us)%nat).
    { apply in_map_iff in HL1. destruct HL1 as ((m & v) & <- & HL1). cbn [fst] in HL2. rewrite EO, frames_run in HL1 by exact HO. destruct HL1 as (i & -> & Hi).
      assert (i < length (w_sol w :: us))%nat by (apply nth_error_Some; congruence). cbn [length] in *. lia. }
    destruct (K Lj) as (w2' & R2 & S2 & O2).
    { rewrite E2. symmetry. apply nth_error_nth. exact Hj. }
    destruct HR as [R_style R_output R_aux R_p R_F R_t].
    assert (HE2 : entries path prefix pa (run_files c2 (w_start w2) (w_sol w2) (skipn j us)) = numbered path prefix pa (w_start w + Z.of_nat j) (skipn j (w_sol w :: us))).
    { assert (SK : skipn j (w_sol w :: us) = w_sol w2 :: skipn j us).
      { rewrite E2. clear - Hj. revert Hj. generalize (w_sol w). revert us. induction j as [|k IH]; intros us x Hj; [cbn in Hj; injection Hj as ->; reflexivity|].
        destruct us as [|y us]; [destruct k; discriminate|]. cbn [skipn]. apply IH. exact Hj. }
      rewrite SK, ES. apply entries_run; [congruence|]. rewrite <- SK, R_aux. rewrite Forall_forall in HAux |- *.
      intros v Hv. apply HAux. rewrite <- (firstn_skipn j (w_sol w :: us)). apply in_app_iff. right. exact Hv. }
    destruct (D2 _ HE2) as (fs1 & fs2 & S1 & S3 & S4).
    exists w2', (run_files c2 (w_start w2) (w_sol w2) (skipn j us)), fs1, fs2.
    split; [exact R2|]. split; [exact O2|]. split; [exact S2|]. split; [exact S1|]. split; [exact S3|]. split; [exact S4|].
    exists us. split; [exact EO|]. split; [rewrite <- E2; reflexivity|exact Hj].
Qed.
End All.
