(** PETSc frames: round trip, auxiliary arrays, refusing to overwrite, interrupted writing, other frames and prefixes. *)
From Coq Require Import Ascii String.
From Verif Require Import Base FormatModel FormatProofs AsciiProofs2 AsciiProofs3 PetscModel PetscSpec PetscProofs.
Open Scope Q_scope.

Section Data.
Context {D M : Type}.
Notation state := (@state D M).
Notation files := (@files D M).
Notation op := (@op D M).

Lemma truncates_app (n : text) (f : state -> op) : (forall s, ~ truncates n (f s)) -> forall l, Forall (fun o => ~ truncates n o) (map f l).
Proof. intros H l. apply Forall_forall. intros o Ho. apply in_map_iff in Ho. destruct Ho as (s & <- & _). apply H. Qed.
Lemma appends_no_trunc (n mn : text) (rs : list (@record D M)) : Forall (fun o => ~ truncates n o) (map (Append mn) rs).
Proof. apply Forall_forall. intros o Ho. apply in_map_iff in Ho. destruct Ho as (s & <- & _). intros (k & E). discriminate. Qed.
Lemma appended_map (mn : text) (rs : list (@record D M)) : flat_map (appended mn) (map (Append mn) rs) = rs.
Proof. induction rs as [|r rs IH]; cbn [map flat_map appended]; [reflexivity|]. rewrite eqb_refl, IH. reflexivity. Qed.
Lemma appended_none (n : text) (os : list op) : Forall (fun o => op_name o <> n) os -> flat_map (appended n) os = [].
Proof.
  intro H. induction os as [|o os IH]; [reflexivity|]. apply Forall_cons_iff in H. destruct H as (H & Hs). cbn [flat_map]. rewrite (IH Hs), app_nil_r.
  destruct o as [m k|m r]; cbn [appended op_name] in *; [reflexivity|]. rewrite eqb_neq by exact H. reflexivity.
Qed.
Lemma trunc_other (n m : text) k : m <> n -> ~ truncates n (@Truncate D M m k).
Proof. intros H (k' & E). congruence. Qed.

(** The files after a successful write *)
Lemma written_files (fs : files) path prefix frame fmt clobber wa wp s0 r :
  let l := s0 :: r in let x := with_aux wa s0 in
  Forall (storable wp s0) l -> has_viewer fmt = true -> no_clobber fs path prefix fmt frame clobber x ->
  exists fs', write fs path prefix frame fmt clobber wa wp l = (fs', None)
  /\ fs' (meta_name path prefix frame) = Some (Pickle, metas wp x fmt l s0)
  /\ fs' (q_name path prefix fmt frame) = Some (Viewer (lower_case fmt), map (fun s => RVec (match shown wp s with Some x => snd x | None => [] end)) l)
  /\ (x = true -> fs' (aux_name path prefix frame) = Some (Viewer (lower_case fmt), map (fun s => RVec (match s_aux s with Some x => snd x | None => [] end)) l))
  /\ (forall n, ~ In n (frame_files path prefix fmt frame x) -> fs' n = fs n).
Proof.
  cbv zeta. intros HS HV HC. destruct (names_differ path prefix fmt frame frame) as (N1 & N2 & N3).
  destruct (write_ops_ok fs path prefix frame fmt clobber wa wp s0 r HS HV HC) as (os & E & A & B & C & F). cbv zeta in *.
  set (x := with_aux wa s0) in *. set (l := s0 :: r) in *.
  set (mn := meta_name path prefix frame) in *. set (qn := q_name path prefix fmt frame) in *. set (an := aux_name path prefix frame) in *.
  unfold write. rewrite E. eexists. split; [reflexivity|].
  assert (T : forall n, Forall (fun o => ~ truncates n o) os) by (intro n; eapply Forall_impl; [|exact A]; intros o Ho; apply Ho).
  split; [|split; [|split]].
  - match goal with |- execs (Truncate mn Pickle :: ?b) fs mn = _ => change (execs ([] ++ Truncate mn Pickle :: b) fs mn = Some (Pickle, metas wp x fmt l s0)) end.
    rewrite execs_once.
    + rewrite flat_map_app, appended_map. cbn [flat_map appended]. rewrite flat_map_app.
      rewrite (appended_none mn os).
      * destruct x; cbn [flat_map appended app]; rewrite ?app_nil_r; reflexivity.
      * rewrite Forall_forall in *. intros o Ho. destruct (B o Ho) as [K|(_ & K)]; rewrite K; congruence.
    + apply Forall_app. split; [apply appends_no_trunc|]. constructor; [apply trunc_other; congruence|].
      apply Forall_app. split; [|apply T]. destruct x; constructor; [apply trunc_other; congruence|constructor].
  - match goal with |- execs (Truncate mn Pickle :: ?a ++ Truncate qn ?v :: ?b) fs qn = _ =>
      change (execs ((Truncate mn Pickle :: a) ++ Truncate qn v :: b) fs qn = Some (v, map (fun s => RVec (match shown wp s with Some x => snd x | None => [] end)) l)) end.
    rewrite execs_once.
    + rewrite flat_map_app, C. destruct x; cbn [flat_map appended app]; reflexivity.
    + apply Forall_app. split; [|apply T]. destruct x; constructor; [apply trunc_other; congruence|constructor].
  - intro Hx. rewrite Hx in *. match goal with |- execs (Truncate mn Pickle :: ?a ++ Truncate qn ?v :: [Truncate an ?v'] ++ ?b) fs an = _ =>
      replace (Truncate mn Pickle :: a ++ Truncate qn v :: [Truncate an v'] ++ b) with ((Truncate mn Pickle :: a ++ [Truncate qn v]) ++ Truncate an v' :: b)
        by (cbn [app]; rewrite <- !app_assoc; reflexivity) end.
    rewrite execs_once; [rewrite F; reflexivity|apply T].
  - intros n Hn. apply execs_other. unfold frame_files in Hn. fold mn qn an in Hn. cbn [In] in Hn.
    constructor; [cbn [op_name]; tauto|]. apply Forall_app. split.
    + apply Forall_forall. intros o Ho. apply in_map_iff in Ho. destruct Ho as (s & <- & _). cbn [op_name]. tauto.
    + constructor; [cbn [op_name]; tauto|]. apply Forall_app. split.
      * destruct x; constructor; [|constructor]. cbn [op_name]. cbn [In] in Hn. tauto.
      * rewrite Forall_forall in *. intros o Ho K. destruct (B o Ho) as [K'|(Hx & K')]; rewrite K in K'; [apply Hn; right; left; congruence|]. rewrite Hx in Hn. cbn [In] in Hn.
        intuition congruence.
Qed.

Section Reading.
Variable loadable : text -> bool.
Variable fresh : Z -> list Q.
Notation read := (@read D M loadable fresh).

(** Is an aux file found when the frame is read? *)
Definition finds_aux (fs : files) path prefix frame : bool :=
  match fs (aux_file fs path prefix frame) with Some _ => true | None => false end.

Lemma naux_positive wp (s0 : state) : storable wp s0 s0 -> negb (s_naux s0 =? 0)%Z = true -> (0 < s_naux s0)%Z.
Proof.
  intros S H. destruct (st_aux _ _ _ S) as (_ & K). unfold s_naux in *. destruct (s_aux s0) as [[n w]|]; [|discriminate].
  exact (proj1 (K n w eq_refl)).
Qed.

(** C113: a frame comes back with the same format, whatever was in the directory: all patches in order with their levels,
    dimensions and values (q, or p with write_p), the first state's time, problem data and mapping; aux if written and
    read. Without an aux file for this frame or frame 0, aux is a new array. No file other than the frame's is touched,
    and read_t gives the frame's data. *)
Theorem C113_round_trip :
  forall (fs : files) path prefix frame fmt clobber wa wp ra s0 r, let l := s0 :: r in let x := with_aux wa s0 in
  Forall (storable wp s0) l -> has_viewer fmt = true -> loadable (lower_case fmt) = true ->
  no_clobber fs path prefix fmt frame clobber x ->
  (ra = false \/ x = true \/ finds_aux fs path prefix frame = false) ->
  exists fs' l', write fs path prefix frame fmt clobber wa wp l = (fs', None)
  /\ read fs' path prefix frame fmt ra = Ok l'
  /\ Forall2 (returned wp s0) l l' /\ Forall2 (aux_back fresh (x && ra)) l l'
  /\ (forall n, ~ In n (frame_files path prefix fmt frame x) -> fs' n = fs n)
  /\ option_map fst (shown wp s0) <> None
  /\ forall n, option_map fst (shown wp s0) = Some n ->
       read_t fs' path prefix frame = Ok (s_t s0, n, length l, s_naux s0, length (s_dims s0)).
Proof.
  cbv zeta. intros fs path prefix frame fmt clobber wa wp ra s0 r HS HV HL HC HA.
  destruct (written_files fs path prefix frame fmt clobber wa wp s0 r HS HV HC) as (fs' & E & Em & Eq & Ea & Eo). cbv zeta in *.
  set (x := with_aux wa s0) in *. set (l := s0 :: r) in *.
  destruct (names_differ path prefix fmt frame frame) as (N1 & N2 & N3).
  assert (S0 : storable wp s0 s0) by (apply Forall_inv in HS; exact HS).
  destruct (st_q _ _ _ S0) as (n0 & v0 & Sh & Sn & _).
  assert (FA : (if (ra && finds_aux fs' path prefix frame)%bool then x && ra else negb (x && ra))%bool = true).
  { unfold finds_aux, aux_file. destruct x eqn:X.
    - rewrite (Ea eq_refl), (Ea eq_refl). destruct ra; reflexivity.
    - cbn [andb negb]. destruct ra; [|reflexivity]. destruct HA as [HA|[HA|HA]]; try discriminate. cbn [andb].
      unfold finds_aux, aux_file in HA.
      assert (NA : forall f, ~ In (aux_name path prefix f) (frame_files path prefix fmt frame false)).
      { intros f K. unfold frame_files in K. cbn [In] in K. destruct (names_differ path prefix fmt frame f) as (M1 & M2 & M3). intuition congruence. }
      rewrite (Eo _ (NA frame)). destruct (fs (aux_name path prefix frame)) eqn:K; [rewrite K in HA; discriminate|].
      rewrite (Eo _ (NA 0%Z)). destruct (fs (aux_name path prefix 0)); [discriminate|reflexivity]. }
  destruct (read_states_ok fresh (first_header wp x fmt l s0) wp s0 (x && ra)%bool l HS) as (l' & R & RB & AB); try reflexivity.
  - cbn [h_neqn first_header]. rewrite Sh. reflexivity.
  - intro H. apply (naux_positive wp s0 S0). unfold x, with_aux in H. rewrite !Bool.andb_true_iff in H. tauto.
  - exists fs', l'. split; [exact E|]. split; [|split; [exact RB|split; [exact AB|split; [exact Eo|split]]]].
    + unfold PetscModel.read. rewrite Em. unfold metas. cbn [next_dict bind fst snd]. fold (finds_aux fs' path prefix frame).
      unfold open_viewer at 1. rewrite HV, Eq, eqb_refl, HL. cbn [andb bind].
      change (h_nstates (first_header wp x fmt l s0)) with (length l).
      destruct (ra && finds_aux fs' path prefix frame)%bool eqn:G.
      * rewrite FA in R. assert (X : x = true) by (apply Bool.andb_true_iff in FA; tauto). unfold aux_file. rewrite (Ea X). unfold open_viewer. rewrite HV, (Ea X), eqb_refl, HL.
        cbn [andb bind]. exact R.
      * apply Bool.negb_true_iff in FA. rewrite FA in R. cbn [bind]. exact R.
    + rewrite Sh. discriminate.
    + intros n Hn. unfold read_t. rewrite Em. unfold metas. cbn [next_dict bind fst snd].
      unfold first_header. cbn [h_t h_neqn h_nstates h_naux h_ndim]. rewrite Sh in *. cbn in Hn. injection Hn as <-. reflexivity.
Qed.

(** C115: with clobber=False no file that exists is changed; if one of the frame's files exists nothing is written at all. *)
Lemma view_states_names qn an wp (l : list state) : Forall (fun o => op_name o = qn \/ Some (op_name o) = an) (fst (view_states qn an wp l)).
Proof.
  induction l as [|s l IH]; cbn [view_states]; [constructor|].
  destruct (if wp then _ else _) as [v|]; [|constructor]. destruct an as [a|].
  - destruct (s_aux s) as [[n w]|]; [|cbn [fst]; constructor; [left; reflexivity|constructor]].
    destruct (view_states qn (Some a) wp l) as [os e]. cbn [fst] in *. constructor; [left; reflexivity|]. constructor; [right; reflexivity|exact IH].
  - destruct (view_states qn None wp l) as [os e]. cbn [fst] in *. constructor; [left; reflexivity|exact IH].
Qed.
Lemma write_ops_names (fs : files) path prefix frame fmt clobber wa wp l :
  Forall (fun o => In (op_name o) (frame_files path prefix fmt frame (match l with s :: _ => with_aux wa s | [] => false end)))
    (fst (write_ops fs path prefix frame fmt clobber wa wp l)).
Proof.
  unfold write_ops. destruct l as [|s r]; [constructor|]. fold (with_aux wa s). set (x := with_aux wa s).
  match goal with |- context [if ?c then ([], Some Clobber) else _] => destruct c end; [constructor|].
  destruct (if wp then _ else _) as [n|]; [|cbn [fst]; constructor; [left; reflexivity|constructor]].
  assert (K : forall h, Forall (fun o : op => In (op_name o) (frame_files path prefix fmt frame x))
     (Truncate (meta_name path prefix frame) Pickle :: Append (meta_name path prefix frame) (RHeader h)
      :: map (fun s => Append (meta_name path prefix frame) (RPatch (meta_of s))) (s :: r))).
  { intro h. constructor; [left; reflexivity|]. constructor; [left; reflexivity|]. apply Forall_forall. intros o Ho.
    apply in_map_iff in Ho. destruct Ho as (y & <- & _). left. reflexivity. }
  destruct (has_viewer fmt); [|cbn [fst]; apply K].
  pose proof (view_states_names (q_name path prefix fmt frame) (if x then Some (aux_name path prefix frame) else None) wp (s :: r)) as V.
  destruct (view_states _ _ wp (s :: r)) as [os e]. cbn [fst] in *. apply Forall_app. split; [apply K|].
  constructor; [right; left; reflexivity|]. apply Forall_app. split.
  - destruct x; constructor; [right; right; left; reflexivity|constructor].
  - eapply Forall_impl; [|exact V]. cbn beta. intros o [Ho|Ho]; [rewrite Ho; right; left; reflexivity|].
    destruct x; [|discriminate]. injection Ho as ->. right; right; left; reflexivity.
Qed.
Theorem C115_refuses :
  forall (fs : files) path prefix frame fmt wa wp s0 r, let l := s0 :: r in let x := with_aux wa s0 in
  let w := write fs path prefix frame fmt false wa wp l in
  (forall name f, fs name = Some f -> fst w name = Some f) /\
  (Exists (fun n => fs n <> None) (frame_files path prefix fmt frame x) <-> snd w = Some Clobber) /\
  (snd w = Some Clobber -> forall name, fst w name = fs name).
Proof.
  intros fs path prefix frame fmt wa wp s0 r l x w.
  assert (EX : Exists (fun n => fs n <> None) (frame_files path prefix fmt frame x) <->
    (match fs (meta_name path prefix frame) with Some _ => true | None => false end
         || match fs (q_name path prefix fmt frame) with Some _ => true | None => false end
         || x && match fs (aux_name path prefix frame) with Some _ => true | None => false end)%bool = true).
  { unfold frame_files. rewrite !Bool.orb_true_iff, !Exists_cons.
    destruct (fs (meta_name path prefix frame)), (fs (q_name path prefix fmt frame)), x; cbn [andb];
      rewrite ?Exists_cons, ?Exists_nil; try destruct (fs (aux_name path prefix frame)); intuition congruence. }
  assert (CL : snd w = Some Clobber <-> Exists (fun n => fs n <> None) (frame_files path prefix fmt frame x)).
  { rewrite EX. unfold w, write, write_ops. unfold l. fold (with_aux wa s0). fold x.
    match goal with |- _ <-> ?b = true => destruct b eqn:C end; cbn [negb andb].
    - split; [reflexivity|reflexivity].
    - split; [|discriminate]. intro H. exfalso.
      destruct (if wp then _ else _); [|discriminate H]. destruct (has_viewer fmt); [|discriminate H].
      assert (V : forall qn an l, snd (@view_states D M qn an wp l) <> Some Clobber).
      { clear. intros qn an. induction l as [|s l IH]; cbn [view_states]; [discriminate|].
        destruct (if wp then _ else _); [|discriminate]. destruct an; [destruct (s_aux s) as [[? ?]|]; [|discriminate]|];
          destruct (view_states _ _ wp l); exact IH. }
      match type of H with context [view_states ?a ?b ?c ?d] => specialize (V a b d); destruct (view_states a b c d) as [os e] end.
      cbn [snd] in *. contradiction. }
  assert (NO : snd w = Some Clobber -> forall name, fst w name = fs name).
  { intro H. apply CL, EX in H. unfold w, write, write_ops. unfold l. fold (with_aux wa s0). fold x. rewrite H. reflexivity. }
  split; [|split; [symmetry; exact CL|exact NO]].
  intros name f E. destruct (Exists_dec (fun n => fs n <> None) (frame_files path prefix fmt frame x)) as [X|X].
  - intro n. destruct (fs n); [left; discriminate|right; congruence].
  - rewrite NO; [exact E|]. apply CL. exact X.
  - unfold w, write. pose proof (write_ops_names fs path prefix frame fmt false wa wp l) as K.
    destruct (write_ops _ _ _ _ _ _ _ _ l) as [os e]. cbn [fst] in *. rewrite execs_other; [exact E|].
    eapply Forall_impl; [|exact K]. cbn beta. intros o Ho En. rewrite En in Ho. apply X. apply Exists_exists. exists name. split; [exact Ho|congruence].
Qed.

(** ** Auxiliary arrays *)
Definition aux_records (l : list state) : list (@record D M) := map (fun s => RVec (match s_aux s with Some x => snd x | None => [] end)) l.
Lemma read_ok (fs : files) path prefix frame fmt x wp ra s0 r : let l := s0 :: r in
  Forall (storable wp s0) l -> has_viewer fmt = true -> loadable (lower_case fmt) = true ->
  fs (meta_name path prefix frame) = Some (Pickle, metas wp x fmt l s0) ->
  fs (q_name path prefix fmt frame) = Some (Viewer (lower_case fmt), map (fun s => RVec (match shown wp s with Some x => snd x | None => [] end)) l) ->
  (ra = true -> finds_aux fs path prefix frame = true ->
     fs (aux_file fs path prefix frame) = Some (Viewer (lower_case fmt), aux_records l) /\ (0 < s_naux s0)%Z) ->
  exists l', read fs path prefix frame fmt ra = Ok l' /\ Forall2 (returned wp s0) l l'
    /\ Forall2 (aux_back fresh (ra && finds_aux fs path prefix frame)) l l'.
Proof.
  cbv zeta. intros HS HV HL Em Eq HA. set (l := s0 :: r) in *. set (has := (ra && finds_aux fs path prefix frame)%bool) in *.
  assert (S0 : storable wp s0 s0) by (apply Forall_inv in HS; exact HS).
  destruct (st_q _ _ _ S0) as (n0 & v0 & Sh & Sn & _).
  assert (HH : has = true -> fs (aux_file fs path prefix frame) = Some (Viewer (lower_case fmt), aux_records l) /\ (0 < s_naux s0)%Z).
  { unfold has. rewrite Bool.andb_true_iff. intros (H1 & H2). exact (HA H1 H2). }
  destruct (read_states_ok fresh (first_header wp x fmt l s0) wp s0 has l HS) as (l' & R & RB & AB); try reflexivity.
  - cbn [h_neqn first_header]. rewrite Sh. reflexivity.
  - intro H. exact (proj2 (HH H)).
  - exists l'. split; [|split; [exact RB|exact AB]].
    unfold PetscModel.read. rewrite Em. unfold metas. cbn [next_dict bind fst snd]. fold (finds_aux fs path prefix frame). fold has.
    unfold open_viewer at 1. rewrite HV, Eq, eqb_refl, HL. cbn [andb bind].
    change (h_nstates (first_header wp x fmt l s0)) with (length l).
    destruct has; [|exact R]. unfold open_viewer. rewrite HV, (proj1 (HH eq_refl)), eqb_refl, HL. cbn [andb bind]. exact R.
Qed.

(** Frames written one after the other under one prefix: frame, write_aux and the states *)
Record job := mkJob { j_frame : Z; j_aux : bool; j_first : state; j_rest : list state }.
Definition j_states (j : job) : list state := j_first j :: j_rest j.
Definition run_job path prefix fmt wp (fs : files) (j : job) : files :=
  fst (write fs path prefix (j_frame j) fmt true (j_aux j) wp (j_states j)).
Definition good_job wp (auxs : list (@record D M)) (j : job) : Prop :=
  (0 <= j_frame j)%Z /\ Forall (storable wp (j_first j)) (j_states j) /\ aux_records (j_states j) = auxs.
Definition aux_inv path prefix fmt (auxs : list (@record D M)) (fs : files) : Prop :=
  forall f, (0 <= f)%Z -> fs (aux_name path prefix f) = None \/ fs (aux_name path prefix f) = Some (Viewer (lower_case fmt), auxs) /\ auxs <> map (fun _ => RVec []) auxs.

Lemma records_nonempty wp s0 r : Forall (storable wp s0) (s0 :: r) -> (0 < s_naux s0)%Z <-> aux_records (s0 :: r) <> map (fun _ => RVec []) (aux_records (s0 :: r)).
Proof.
  intro HS. unfold aux_records. assert (S : storable wp s0 s0) by (apply Forall_inv in HS; exact HS). destruct (st_aux _ _ _ S) as (_ & K).
  assert (C : (0 < cells (s_dims s0))%Z).
  { pose proof (st_dims _ _ _ S) as HD. clear -HD. induction HD as [|d ds (H & _) _ IH]; cbn [cells fold_right]; [lia|]. unfold cells in IH. nia. }
  split.
  - intros Hn E. cbn [map] in E. injection E as E _. unfold s_naux in Hn. destruct (s_aux s0) as [[n w]|]; [|lia]. cbn [snd] in E. subst w.
    destruct (K n [] eq_refl) as (_ & L). cbn in L. nia.
  - intro N. destruct (Z.lt_ge_cases 0 (s_naux s0)) as [|Hn]; [assumption|]. exfalso. apply N. rewrite map_map. apply map_ext_in. intros s Hs.
    rewrite Forall_forall in HS. destruct (st_aux _ _ _ (HS s Hs)) as (Hx & Hy). unfold s_naux in Hn.
    destruct (s_aux s) as [[n w]|] eqn:X; [|reflexivity]. destruct (s_aux s0) as [[n0 w0]|] eqn:X0; [|discriminate Hx].
    destruct (K n0 w0 eq_refl). lia.
Qed.
Lemma job_written path prefix fmt wp auxs (fs : files) j : good_job wp auxs j -> has_viewer fmt = true ->
  let fs' := run_job path prefix fmt wp fs j in let l := j_states j in let s0 := j_first j in let x := with_aux (j_aux j) s0 in
  write fs path prefix (j_frame j) fmt true (j_aux j) wp l = (fs', None)
  /\ fs' (meta_name path prefix (j_frame j)) = Some (Pickle, metas wp x fmt l s0)
  /\ fs' (q_name path prefix fmt (j_frame j)) = Some (Viewer (lower_case fmt), map (fun s => RVec (match shown wp s with Some x => snd x | None => [] end)) l)
  /\ (x = true -> fs' (aux_name path prefix (j_frame j)) = Some (Viewer (lower_case fmt), aux_records l))
  /\ (forall n, ~ In n (frame_files path prefix fmt (j_frame j) x) -> fs' n = fs n).
Proof.
  intros (_ & HS & _) HV. cbv zeta.
  destruct (written_files fs path prefix (j_frame j) fmt true (j_aux j) wp (j_first j) (j_rest j) HS HV (or_introl eq_refl)) as (fs' & E & K).
  unfold run_job. change (j_first j :: j_rest j) with (j_states j) in E. rewrite E. cbn [fst]. split; [reflexivity|exact K].
Qed.
Lemma job_inv path prefix fmt wp auxs (fs : files) j : good_job wp auxs j -> has_viewer fmt = true ->
  aux_inv path prefix fmt auxs fs -> aux_inv path prefix fmt auxs (run_job path prefix fmt wp fs j).
Proof.
  intros G HV I f Hf. destruct (job_written path prefix fmt wp auxs fs j G HV) as (_ & _ & _ & Ea & Eo). cbv zeta in *.
  destruct G as (Hj & HS & HA).
  destruct (in_dec (list_eq_dec ascii_dec) (aux_name path prefix f) (frame_files path prefix fmt (j_frame j) (with_aux (j_aux j) (j_first j)))) as [K|K].
  - destruct (names_differ path prefix fmt (j_frame j) f) as (N1 & N2 & N3). unfold frame_files in K. cbn [In] in K.
    destruct (with_aux (j_aux j) (j_first j)) eqn:X; cbn [In] in K; [|intuition congruence].
    assert (EE : aux_name path prefix (j_frame j) = aux_name path prefix f) by intuition congruence.
    right. rewrite <- EE, (Ea eq_refl), HA. split; [reflexivity|]. rewrite <- HA. apply (records_nonempty wp (j_first j) (j_rest j) HS).
    apply (naux_positive wp); [apply Forall_inv in HS; exact HS|]. unfold with_aux in X. apply Bool.andb_true_iff in X. tauto.
  - rewrite (Eo _ K). apply I. exact Hf.
Qed.
Lemma jobs_inv path prefix fmt wp auxs : has_viewer fmt = true -> forall js (fs : files), Forall (good_job wp auxs) js ->
  aux_inv path prefix fmt auxs fs -> aux_inv path prefix fmt auxs (fold_left (run_job path prefix fmt wp) js fs).
Proof.
  intro HV. induction js as [|j js IH]; intros fs H I; cbn [fold_left]; [exact I|]. apply Forall_cons_iff in H. destruct H as (H & Hs).
  apply IH; [exact Hs|]. apply job_inv; assumption.
Qed.
(** writing other frames leaves the .pkl and q files of a frame alone *)
Lemma jobs_other path prefix fmt wp auxs frame : has_viewer fmt = true -> (0 <= frame)%Z -> forall js (fs : files), Forall (good_job wp auxs) js ->
  Forall (fun j => j_frame j <> frame) js -> let fs' := fold_left (run_job path prefix fmt wp) js fs in
  fs' (meta_name path prefix frame) = fs (meta_name path prefix frame) /\ fs' (q_name path prefix fmt frame) = fs (q_name path prefix fmt frame)
  /\ (fs (aux_name path prefix frame) <> None -> fs' (aux_name path prefix frame) <> None).
Proof.
  intros HV Hf. cbv zeta. induction js as [|j js IH]; intros fs H N; cbn [fold_left]; [auto|].
  apply Forall_cons_iff in H. destruct H as (H & Hs). apply Forall_cons_iff in N. destruct N as (N & Ns).
  destruct (IH (run_job path prefix fmt wp fs j) Hs Ns) as (A & B & C). rewrite A, B.
  destruct (job_written path prefix fmt wp auxs fs j H HV) as (_ & _ & _ & _ & Eo). cbv zeta in Eo. destruct H as (Hj & _).
  assert (K : forall n, In n [meta_name path prefix frame; q_name path prefix fmt frame; aux_name path prefix frame] ->
    ~ In n (frame_files path prefix fmt (j_frame j) (with_aux (j_aux j) (j_first j)))).
  { intros n Hn K. unfold frame_files in K. cbn [In] in *.
    destruct (names_differ path prefix fmt (j_frame j) frame) as (N1 & N2 & N3). destruct (names_differ path prefix fmt frame (j_frame j)) as (M1 & M2 & M3).
    assert (P1 : meta_name path prefix (j_frame j) <> meta_name path prefix frame) by (intro P; apply meta_name_inj in P; congruence).
    assert (P2 : q_name path prefix fmt (j_frame j) <> q_name path prefix fmt frame) by (intro P; apply q_name_inj in P; congruence).
    assert (P3 : aux_name path prefix (j_frame j) <> aux_name path prefix frame) by (intro P; apply aux_name_inj in P; congruence).
    destruct (with_aux (j_aux j) (j_first j)); cbn [In] in K; intuition congruence. }
  split; [apply Eo, K; left; reflexivity|]. split; [apply Eo, K; right; left; reflexivity|].
  intro Ha. apply C. rewrite Eo; [exact Ha|]. apply K. right; right; left; reflexivity.
Qed.

(** C114: a run that starts in a directory without aux files of this prefix and writes any frames (again and again, with or
    without aux) of solutions whose aux arrays do not change: every frame comes back, with its aux whenever an aux file was
    found, and certainly if it was written with aux. *)
Theorem C114_history_partial :
  forall path prefix fmt wp ra auxs (fs : files) pre j post, has_viewer fmt = true -> loadable (lower_case fmt) = true ->
  (forall f, (0 <= f)%Z -> fs (aux_name path prefix f) = None) ->
  Forall (good_job wp auxs) (pre ++ j :: post) -> Forall (fun j' => j_frame j' <> j_frame j) post ->
  exists l' has, read (fold_left (run_job path prefix fmt wp) (pre ++ j :: post) fs) path prefix (j_frame j) fmt ra = Ok l'
  /\ Forall2 (returned wp (j_first j)) (j_states j) l' /\ Forall2 (aux_back fresh has) (j_states j) l'
  /\ (ra = true -> with_aux (j_aux j) (j_first j) = true -> has = true).
Proof.
  intros path prefix fmt wp ra auxs fs pre j post HV HL H0 HG HN.
  set (fs' := fold_left (run_job path prefix fmt wp) (pre ++ j :: post) fs).
  assert (I : aux_inv path prefix fmt auxs fs') by (apply (jobs_inv path prefix fmt wp auxs HV _ fs HG); intros f Hf; left; exact (H0 f Hf)).
  assert (G : good_job wp auxs j) by (rewrite Forall_app in HG; destruct HG as (_ & HG); apply Forall_inv in HG; exact HG).
  assert (Gp : Forall (good_job wp auxs) post) by (rewrite Forall_app in HG; destruct HG as (_ & HG); apply Forall_inv_tail in HG; exact HG).
  destruct (job_written path prefix fmt wp auxs (fold_left (run_job path prefix fmt wp) pre fs) j G HV) as (_ & Em & Eq & Ea & _). cbv zeta in *.
  destruct G as (Hj & HS & HA).
  destruct (jobs_other path prefix fmt wp auxs (j_frame j) HV Hj post (run_job path prefix fmt wp (fold_left (run_job path prefix fmt wp) pre fs) j) Gp HN) as (A & B & C).
  cbv zeta in *. assert (FS : fs' = fold_left (run_job path prefix fmt wp) post (run_job path prefix fmt wp (fold_left (run_job path prefix fmt wp) pre fs) j))
    by (unfold fs'; rewrite fold_left_app; reflexivity). rewrite <- FS in A, B, C. rewrite Em in A. rewrite Eq in B.
  destruct (read_ok fs' path prefix (j_frame j) fmt (with_aux (j_aux j) (j_first j)) wp ra (j_first j) (j_rest j) HS HV HL A B) as (l' & R & RB & AB).
  - intros _ Hx. unfold finds_aux in Hx.
    assert (K : exists f, (0 <= f)%Z /\ aux_file fs' path prefix (j_frame j) = aux_name path prefix f).
    { unfold aux_file. destruct (fs' (aux_name path prefix (j_frame j))); [exists (j_frame j)|exists 0%Z]; split; (reflexivity || lia). }
    destruct K as (f & Hf & K). rewrite K in *. destruct (I f Hf) as [N|(N & P)]; [rewrite N in Hx; discriminate|]. rewrite N.
    change (j_first j :: j_rest j) with (j_states j). rewrite HA. split; [reflexivity|].
    apply (records_nonempty wp (j_first j) (j_rest j) HS). change (j_first j :: j_rest j) with (j_states j). rewrite HA. exact P.
  - exists l', (ra && finds_aux fs' path prefix (j_frame j))%bool. split; [exact R|]. split; [exact RB|]. split; [exact AB|].
    intros -> X. cbn [andb]. unfold finds_aux, aux_file.
    assert (K : fs' (aux_name path prefix (j_frame j)) <> None) by (apply C; rewrite (Ea X); discriminate).
    destruct (fs' (aux_name path prefix (j_frame j))) eqn:F; [rewrite F; reflexivity|congruence].
Qed.

(** ** Interrupted writing *)
Lemma some_inj {A B} (a c : A) (b d : B) : Some (a, b) = Some (c, d) -> a = c /\ b = d.
Proof. intro H. injection H. auto. Qed.
Lemma once_split {A} (P : A -> Prop) (p s : list A) x k : Forall (fun o => ~ P o) p -> Forall (fun o => ~ P o) s ->
  Forall (fun o => ~ P o) (firstn k (p ++ x :: s)) /\ incl (firstn k (p ++ x :: s)) p \/ Forall (fun o => ~ P o) (skipn k (p ++ x :: s)).
Proof.
  intros Hp Hs. destruct (Nat.le_gt_cases k (length p)) as [L|L].
  - left. rewrite firstn_app. replace (k - length p)%nat with 0%nat by lia. cbn [firstn]. rewrite app_nil_r.
    assert (I : incl (firstn k p) p). { intros y Hy. rewrite <- (firstn_skipn k p). apply in_or_app. left. exact Hy. }
    split; [|exact I]. rewrite Forall_forall in *. intros y Hy. apply Hp, I, Hy.
  - right. rewrite skipn_app. rewrite skipn_all2 by lia. cbn [app].
    replace (k - length p)%nat with (S (k - length p - 1)) by lia. cbn [skipn].
    rewrite Forall_forall in *. intros y Hy. apply Hs. rewrite <- (firstn_skipn (k - length p - 1) s). apply in_or_app. right. exact Hy.
Qed.
Lemma execs_empty n : forall (os : list op) (fs : files), Forall (fun o => op_name o = n -> truncates n o) os ->
  (fs n = None \/ exists k, fs n = Some (k, [])) -> execs os fs n = None \/ exists k, execs os fs n = Some (k, []).
Proof.
  unfold execs. induction os as [|o os IH]; intros fs H N; cbn [fold_left]; [exact N|]. apply Forall_cons_iff in H. destruct H as (H & Hs).
  apply IH; [exact Hs|]. destruct (list_eq_dec ascii_dec (op_name o) n) as [E|E].
  - destruct (H E) as (k & ->). right. exists k. apply set_file_same.
  - rewrite exec_other by exact E. exact N.
Qed.

(** C116: writing a new frame may stop after any operation on the files: reading the frame then raises, or gives exactly
    what it gives after the complete write. *)
Theorem C116_interrupted_partial :
  forall (fs : files) path prefix frame fmt clobber wa wp s0 r k ra, let l := s0 :: r in let x := with_aux wa s0 in
  Forall (storable wp s0) l -> has_viewer fmt = true ->
  Forall (fun n => fs n = None) (frame_files path prefix fmt frame x) ->
  let os := fst (write_ops fs path prefix frame fmt clobber wa wp l) in
  (exists e, read (execs (firstn k os) fs) path prefix frame fmt ra = Err e) \/
  read (execs (firstn k os) fs) path prefix frame fmt ra = read (execs os fs) path prefix frame fmt ra.
Proof.
  cbv zeta. intros fs path prefix frame fmt clobber wa wp s0 r k ra HS HV HN.
  destruct (written_files fs path prefix frame fmt clobber wa wp s0 r HS HV (or_intror HN)) as (fs' & W & Em & Eq & Ea & _).
  destruct (write_ops_ok fs path prefix frame fmt clobber wa wp s0 r HS HV (or_intror HN)) as (os & E & A & B & _ & _).
  cbv zeta in *. unfold write in W. rewrite E in *. cbn [fst snd]. apply (f_equal fst) in W. cbn [fst] in W.
  destruct (names_differ path prefix fmt frame frame) as (N1 & N2 & N3).
  set (x := with_aux wa s0) in *. set (l := s0 :: r) in *. set (lf := lower_case fmt) in *.
  set (mn := meta_name path prefix frame) in *. set (qn := q_name path prefix fmt frame) in *. set (an := aux_name path prefix frame) in *.
  unfold frame_files in HN. fold mn qn an in HN. apply Forall_cons_iff in HN. destruct HN as (Fm & HN). apply Forall_cons_iff in HN. destruct HN as (Fq & Fa).
  set (ms := map (Append mn) (metas wp x fmt l s0)) in *.
  set (ta := if x then [Truncate an (Viewer lf)] else []) in *.
  set (all := Truncate mn Pickle :: ms ++ Truncate qn (Viewer lf) :: ta ++ os) in *.
  assert (T : forall n, Forall (fun o => ~ truncates n o) os) by (intro n; eapply Forall_impl; [|exact A]; intros o Ho; apply Ho).
  assert (Tm : forall n, Forall (fun o => ~ truncates n o) ms) by (intro n; apply appends_no_trunc).
  assert (Ta : forall n, n <> an -> Forall (fun o => ~ truncates n o) ta).
  { intros n Hn. unfold ta. destruct x; constructor; [apply trunc_other; congruence|constructor]. }
  set (fsk := execs (firstn k all) fs). set (b := skipn k all).
  assert (FS : fs' = execs b fsk) by (rewrite <- W; unfold fsk, b; rewrite <- execs_app, firstn_skipn; reflexivity).
  (* the metadata *)
  assert (Km : (fsk mn = None) \/ Forall (fun o => ~ truncates mn o) b).
  { destruct (once_split (truncates mn) [] (ms ++ Truncate qn (Viewer lf) :: ta ++ os) (Truncate mn Pickle) k) as [(K & _)|K].
    - constructor.
    - apply Forall_app. split; [apply Tm|]. constructor; [apply trunc_other; congruence|]. apply Forall_app. split; [apply Ta; congruence|apply T].
    - left. apply execs_absent; [exact K|exact Fm].
    - right. exact K. }
  destruct Km as [Km|Km]; [left; exists NoFile; unfold PetscModel.read; fold mn; rewrite Km; reflexivity|].
  destruct (fsk mn) as [[kd lm]|] eqn:Ekm; [|left; exists NoFile; unfold PetscModel.read; fold mn; rewrite Ekm; reflexivity].
  pose proof (execs_appends mn b fsk kd lm Km Ekm) as Xm. rewrite <- FS, Em in Xm. injection Xm as <- Xm.
  set (me := flat_map (appended mn) b) in *.
  destruct lm as [|h0 lm]; [left; exists EndOfFile; unfold PetscModel.read; fold mn; rewrite Ekm; reflexivity|].
  unfold metas in Xm. cbn [app] in Xm. injection Xm as <- Xm.
  set (h := first_header wp x fmt l s0) in *.
  (* the values *)
  assert (Kq : (fsk qn = None) \/ Forall (fun o => ~ truncates qn o) b).
  { destruct (once_split (truncates qn) (Truncate mn Pickle :: ms) (ta ++ os) (Truncate qn (Viewer lf)) k) as [(K & _)|K].
    - constructor; [apply trunc_other; congruence|apply Tm].
    - apply Forall_app. split; [apply Ta; congruence|apply T].
    - left. apply execs_absent; [exact K|exact Fq].
    - right. exact K. }
  assert (R0 : forall (g : files), g mn = Some (Pickle, RHeader h :: lm) ->
    read g path prefix frame fmt ra =
      bind (open_viewer loadable g qn fmt) (fun qs =>
        bind (if (ra && finds_aux g path prefix frame)%bool then bind (open_viewer loadable g (aux_file g path prefix frame) fmt) (fun y => Ok (Some y)) else Ok None)
          (fun auxs => read_states fresh h (length l) lm qs auxs))).
  { intros g Hg. unfold PetscModel.read. fold mn. rewrite Hg. reflexivity. }
  assert (R1 : read fs' path prefix frame fmt ra =
      bind (open_viewer loadable fs' qn fmt) (fun qs =>
        bind (if (ra && finds_aux fs' path prefix frame)%bool then bind (open_viewer loadable fs' (aux_file fs' path prefix frame) fmt) (fun y => Ok (Some y)) else Ok None)
          (fun auxs => read_states fresh h (length l) (lm ++ me) qs auxs))).
  { assert (Xm' : map (fun s => RPatch (meta_of s)) l = lm ++ me) by exact Xm.
    unfold PetscModel.read. fold mn. rewrite Em. unfold metas. rewrite Xm'. reflexivity. }
  rewrite W. rewrite (R0 fsk Ekm), R1.
  assert (ON : fsk qn = None -> exists e, open_viewer loadable fsk qn fmt = Err e) by (intro K; unfold open_viewer; rewrite HV, K; eexists; reflexivity).
  destruct Kq as [Kq|Kq]; [left; destruct (ON Kq) as (e & ->); exists e; reflexivity|].
  destruct (fsk qn) as [[kq lq]|] eqn:Ekq; [|left; destruct (ON eq_refl) as (e & ->); exists e; reflexivity].
  pose proof (execs_appends qn b fsk kq lq Kq Ekq) as Xq. rewrite <- FS, Eq in Xq. apply some_inj in Xq. destruct Xq as (<- & Xq).
  set (qe := flat_map (appended qn) b) in *.
  assert (OQ : open_viewer loadable fsk qn fmt = (if loadable lf then Ok lq else Err BadFile)).
  { unfold open_viewer. rewrite HV, Ekq. fold lf. rewrite eqb_refl. reflexivity. }
  assert (OQ' : open_viewer loadable fs' qn fmt = (if loadable lf then Ok (lq ++ qe) else Err BadFile)).
  { unfold open_viewer. rewrite HV, Eq. fold lf. rewrite eqb_refl, Xq. reflexivity. }
  rewrite OQ, OQ'. destruct (loadable lf) eqn:LD; [|left; exists BadFile; reflexivity]. cbn [bind].
  (* aux *)
  assert (KA : lq = [] \/ exists ext, finds_aux fsk path prefix frame = finds_aux fs' path prefix frame /\
    forall y, open_viewer loadable fsk (aux_file fsk path prefix frame) fmt = Ok y -> open_viewer loadable fs' (aux_file fs' path prefix frame) fmt = Ok (y ++ ext)).
  { destruct (Bool.bool_dec x true) as [X|X].
    - assert (TA : ta = [Truncate an (Viewer lf)]) by (unfold ta; rewrite X; reflexivity).
      assert (ALL : all = (Truncate mn Pickle :: ms ++ [Truncate qn (Viewer lf)]) ++ Truncate an (Viewer lf) :: os).
      { unfold all. rewrite TA. cbn [app]. rewrite <- app_assoc. reflexivity. }
      destruct (once_split (truncates an) (Truncate mn Pickle :: ms ++ [Truncate qn (Viewer lf)]) os (Truncate an (Viewer lf)) k) as [(_ & K)|K].
      + constructor; [apply trunc_other; congruence|]. apply Forall_app. split; [apply Tm|]. constructor; [apply trunc_other; congruence|constructor].
      + apply T.
      + left. rewrite <- ALL in K. destruct (execs_empty qn (firstn k all) fs) as [Z|(kz & Z)].
        * apply Forall_forall. intros o Ho En. apply K in Ho. cbn [In] in Ho. destruct Ho as [<-|Ho]; [cbn [op_name] in En; congruence|].
          apply in_app_iff in Ho. destruct Ho as [Ho|[<-|[]]]; [|exists (Viewer lf); reflexivity].
          apply in_map_iff in Ho. destruct Ho as (rr & <- & _). cbn [op_name] in En. congruence.
        * left. exact Fq.
        * fold fsk in Z. congruence.
        * fold fsk in Z. congruence.
      + right. rewrite <- ALL in K. fold b in K. specialize (Ea X).
        destruct (fsk an) as [[ka la]|] eqn:Eka.
        * pose proof (execs_appends an b fsk ka la K Eka) as Xa. rewrite <- FS, Ea in Xa. apply some_inj in Xa. destruct Xa as (<- & Xa).
          exists (flat_map (appended an) b). unfold finds_aux, aux_file. fold an. rewrite Eka, Ea, Eka, Ea. split; [reflexivity|].
          intros y. unfold open_viewer. rewrite HV, Eka, Ea. fold lf. rewrite eqb_refl, LD. cbn [andb]. intro Y. injection Y as <-. rewrite Xa. reflexivity.
        * pose proof (execs_absent an b fsk K Eka) as Z. rewrite <- FS in Z. congruence.
    - right. exists []. apply Bool.not_true_is_false in X.
      assert (SA : forall f, fs' (aux_name path prefix f) = fsk (aux_name path prefix f)).
      { intro f. rewrite FS. apply execs_other. apply Forall_forall. intros o Ho.
        assert (Ho' : In o all) by (rewrite <- (firstn_skipn k all); apply in_or_app; right; exact Ho).
        destruct (names_differ path prefix fmt frame f) as (_ & P2 & P3). fold mn in P2. fold qn in P3.
        unfold all, ta in Ho'. rewrite X in Ho'. cbn [app In] in Ho'. destruct Ho' as [<-|Ho']; [exact P2|]. apply in_app_iff in Ho'.
        destruct Ho' as [Ho'|[<-|Ho']]; [|exact P3|].
        - apply in_map_iff in Ho'. destruct Ho' as (rr & <- & _). exact P2.
        - rewrite Forall_forall in B. destruct (B o Ho') as [->|(Y & _)]; [exact P3|congruence]. }
      assert (AF : aux_file fs' path prefix frame = aux_file fsk path prefix frame) by (unfold aux_file; rewrite !SA; reflexivity).
      assert (AC : fs' (aux_file fs' path prefix frame) = fsk (aux_file fsk path prefix frame)).
      { rewrite AF. unfold aux_file. destruct (fsk (aux_name path prefix frame)); apply SA. }
      unfold finds_aux. rewrite AC. split; [reflexivity|]. intros y Y. rewrite app_nil_r. unfold open_viewer in *. rewrite AC. exact Y. }
  destruct KA as [->|(ext & KF & KO)].
  - left. change (length l) with (S (length r)).
    destruct (if (ra && finds_aux fsk path prefix frame)%bool then _ else _) as [auxs|e]; cbn [bind]; [|exists e; reflexivity].
    apply read_states_empty.
  - rewrite <- KF. destruct (ra && finds_aux fsk path prefix frame)%bool.
    + destruct (open_viewer loadable fsk (aux_file fsk path prefix frame) fmt) as [y|e]; cbn [bind]; [|left; exists e; reflexivity].
      rewrite (KO y eq_refl). cbn [bind]. destruct (read_states fresh h (length l) lm lq (Some y)) as [l'|e] eqn:RR; [|left; exists e; reflexivity].
      right. symmetry. exact (read_states_longer fresh h _ _ _ _ _ me qe ext RR).
    + cbn [bind]. destruct (read_states fresh h (length l) lm lq None) as [l'|e] eqn:RR; [|left; exists e; reflexivity].
      right. symmetry. exact (read_states_longer fresh h _ _ _ _ _ me qe ext RR).
Qed.

(** ** Other frames and prefixes *)
Lemma read_ext (fs fs' : files) path prefix frame fmt ra :
  fs' (meta_name path prefix frame) = fs (meta_name path prefix frame) -> fs' (q_name path prefix fmt frame) = fs (q_name path prefix fmt frame) ->
  (ra = true -> fs' (aux_name path prefix frame) = fs (aux_name path prefix frame) /\ fs' (aux_name path prefix 0) = fs (aux_name path prefix 0)) ->
  read fs' path prefix frame fmt ra = read fs path prefix frame fmt ra.
Proof.
  intros Hm Hq Ha. unfold PetscModel.read. rewrite Hm. destruct (fs (meta_name path prefix frame)) as [[[|v] [|h l]]|]; try reflexivity.
  cbn [next_dict bind fst snd]. destruct h as [h|?|?]; try reflexivity.
  assert (O : open_viewer loadable fs' (q_name path prefix fmt frame) fmt = open_viewer loadable fs (q_name path prefix fmt frame) fmt) by (unfold open_viewer; rewrite Hq; reflexivity).
  rewrite O. destruct (open_viewer loadable fs (q_name path prefix fmt frame) fmt) as [qs|]; cbn [bind]; [|reflexivity].
  destruct ra; [|reflexivity]. destruct (Ha eq_refl) as (H1 & H2). cbn [andb].
  assert (AF : aux_file fs' path prefix frame = aux_file fs path prefix frame) by (unfold aux_file; rewrite H1; reflexivity).
  assert (AC : fs' (aux_file fs' path prefix frame) = fs (aux_file fs path prefix frame)) by (rewrite AF; unfold aux_file; destruct (fs (aux_name path prefix frame)) eqn:Z; congruence).
  rewrite AC. destruct (fs (aux_file fs path prefix frame)) eqn:E; [|reflexivity]. unfold open_viewer. rewrite AC, E. reflexivity.
Qed.
Theorem C117_others_partial :
  forall (fs : files) path p1 f1 fmt1 clobber wa wp l p2 f2 fmt2 ra, (0 <= f1 < 10000)%Z -> (0 <= f2 < 10000)%Z ->
  (p1 = p2 /\ f1 <> f2 /\ (f1 <> 0%Z \/ ra = false)) \/ (p1 <> p2 /\ p1 <> p2 ++ lit "_aux" /\ p2 <> p1 ++ lit "_aux") ->
  read (fst (write fs path p1 f1 fmt1 clobber wa wp l)) path p2 f2 fmt2 ra = read fs path p2 f2 fmt2 ra.
Proof.
  intros fs path p1 f1 fmt1 clobber wa wp l p2 f2 fmt2 ra B1 B2 HH.
  set (x := match l with s :: _ => with_aux wa s | [] => false end).
  assert (O : forall n, ~ In n (frame_files path p1 fmt1 f1 x) -> fst (write fs path p1 f1 fmt1 clobber wa wp l) n = fs n).
  { intros n Hn. unfold write. pose proof (write_ops_names fs path p1 f1 fmt1 clobber wa wp l) as K. fold x in K.
    destruct (write_ops fs path p1 f1 fmt1 clobber wa wp l) as [os e]. cbn [fst] in *. apply execs_other.
    eapply Forall_impl; [|exact K]. cbn beta. intros o Ho En. rewrite En in Ho. contradiction. }
  assert (INC : forall n, In n (frame_files path p1 fmt1 f1 x) -> n = meta_name path p1 f1 \/ n = q_name path p1 fmt1 f1 \/ n = aux_name path p1 f1).
  { intros n Hn. unfold frame_files in Hn. destruct x; cbn [In] in Hn; intuition congruence. }
  destruct HH as [(<- & Hf & Hra)|(NP & NA & NB)].
  - assert (V : forall f g, q_name path p1 f f1 <> q_name path p1 g f2) by (intros f g E; apply q_name_inj in E; lia).
    apply read_ext; [apply O; intro K; apply INC in K|apply O; intro K; apply INC in K|intro R; split; (apply O; intro K; apply INC in K)].
    + destruct (names_differ path p1 fmt1 f2 f1) as (M1 & M2 & _). destruct K as [K|[K|K]]; try congruence. apply meta_name_inj in K; lia.
    + destruct (names_differ path p1 fmt2 f1 f2) as (M1 & _ & _). destruct (names_differ path p1 fmt2 f2 f1) as (_ & _ & M3).
      destruct K as [K|[K|K]]; try congruence. exact (V fmt1 fmt2 (eq_sym K)).
    + destruct (names_differ path p1 fmt1 f1 f2) as (_ & M2 & M3). destruct K as [K|[K|K]]; try congruence. apply aux_name_inj in K; lia.
    + destruct (names_differ path p1 fmt1 f1 0) as (_ & M2 & M3). destruct K as [K|[K|K]]; try congruence. apply aux_name_inj in K; try lia.
      destruct Hra; [lia|congruence].
  - assert (AP : forall k1 k2 f g, (0 <= f < 10000)%Z -> (0 <= g < 10000)%Z -> name_of path p2 k2 g <> name_of path p1 k1 f).
    { intros k1 k2 f g Bf Bg E. symmetry in E. destruct (names_apart path p1 p2 k1 k2 f g Bf Bg E) as [Z|[Z|Z]]; congruence. }
    apply read_ext; [apply O; intro K; apply INC in K|apply O; intro K; apply INC in K|intro R; split; (apply O; intro K; apply INC in K)];
      destruct K as [K|[K|K]].
    + refine (AP KMeta KMeta f1 f2 _ _ K); assumption.
    + refine (AP (KQ fmt1) KMeta f1 f2 _ _ K); assumption.
    + refine (AP KAux KMeta f1 f2 _ _ K); assumption.
    + refine (AP KMeta (KQ fmt2) f1 f2 _ _ K); assumption.
    + refine (AP (KQ fmt1) (KQ fmt2) f1 f2 _ _ K); assumption.
    + refine (AP KAux (KQ fmt2) f1 f2 _ _ K); assumption.
    + refine (AP KMeta KAux f1 f2 _ _ K); assumption.
    + refine (AP (KQ fmt1) KAux f1 f2 _ _ K); assumption.
    + refine (AP KAux KAux f1 f2 _ _ K); assumption.
    + refine (AP KMeta KAux f1 0%Z _ _ K); lia.
    + refine (AP (KQ fmt1) KAux f1 0%Z _ _ K); lia.
    + refine (AP KAux KAux f1 0%Z _ _ K); lia.
Qed.
End Reading.
End Data.
Print Assumptions C113_round_trip.
Print Assumptions C115_refuses.
Print Assumptions C114_history_partial.
Print Assumptions C116_interrupted_partial.
Print Assumptions C117_others_partial.

(** *** Concrete cases *)
Notation st := (@state unit unit).
Definition ex_dim := mkDim 0 1 2 (lit "x").
Definition ex_state (t q1 q2 a1 a2 : Q) : st := mkState 1 [ex_dim] t tt tt 1 [q1; q2] (Some (2%Z, [q1; q2; 0; 1])) (Some (1%Z, [a1; a2])).
Definition ex_bare (t q1 q2 : Q) : st := mkState 1 [ex_dim] t tt tt 1 [q1; q2] None None.
Definition empty : @files unit unit := fun _ => None.
Definition bin_only (t : text) : bool := text_eqb t (lit "binary").
Definition zeros (n : Z) : list Q := repeat 0 (Z.to_nat n).
Definition out := lit "_output".
Lemma ex_storable wp t0 q10 q20 a10 a20 t q1 q2 a1 a2 : storable wp (ex_state t0 q10 q20 a10 a20) (ex_state t q1 q2 a1 a2).
Proof.
  constructor.
  - repeat constructor; cbn; lra.
  - reflexivity.
  - destruct wp; do 2 eexists; (split; [reflexivity|]); split; reflexivity.
  - split; [reflexivity|]. intros n w E. injection E as <- <-. split; [lia|reflexivity].
Qed.
Lemma bare_storable t0 q10 q20 t q1 q2 : storable false (ex_bare t0 q10 q20) (ex_bare t q1 q2).
Proof.
  constructor.
  - repeat constructor; cbn; lra.
  - reflexivity.
  - do 2 eexists; (split; [reflexivity|]); split; reflexivity.
  - split; [reflexivity|]. intros n w E. discriminate.
Qed.
(** The hypotheses of C113, C114 and C116: two patches, with and without write_p *)
Example C113_example :
  Forall (storable false (ex_state 1 2 3 4 5)) [ex_state 1 2 3 4 5; ex_state 7 6 7 8 9] /\ has_viewer (lit "Binary") = true /\
  Forall (fun n => empty n = None) (frame_files out (lit "claw") (lit "Binary") 12 true) /\
  meta_name out (lit "claw") 12 = lit "_output/claw.pkl0012" /\
  read bin_only zeros (fst (write empty out (lit "claw") 12 (lit "Binary") false true true [ex_state 1 2 3 4 5; ex_state 7 6 7 8 9]))
    out (lit "claw") 12 (lit "binary") true
  = Ok [mkState 1 [mkDim 0 (0 + inject_Z 2 * ((1 - 0) / inject_Z 2)) 2 (lit "x")] 1 tt tt 2 [2; 3; 0; 1] None (Some (1%Z, [4; 5]));
        mkState 1 [mkDim 0 (0 + inject_Z 2 * ((1 - 0) / inject_Z 2)) 2 (lit "x")] 1 tt tt 2 [6; 7; 0; 1] None (Some (1%Z, [8; 9]))].
Proof.
  split; [repeat (constructor; [apply ex_storable|]); constructor|]. split; [reflexivity|]. split; [repeat constructor|].
  split; vm_compute; reflexivity.
Qed.
Example C114_example : Forall (good_job false (aux_records [ex_state 1 2 3 4 5]))
  [mkJob 0 true (ex_state 1 2 3 4 5) []; mkJob 1 false (ex_state 2 3 3 4 5) []; mkJob 0 false (ex_state 5 2 3 4 5) []].
Proof. repeat (constructor; [split; [cbn; lia|split; [constructor; [apply ex_storable|constructor]|reflexivity]]|]). constructor. Qed.

(** C114: the aux array of an older run in the same directory comes back; a solution without aux then cannot be read at
    all. *)
Theorem C114_stale_refuted :
  exists fs1 fs2 (old new s' : st),
  storable false old old /\ storable false new new /\ s_naux new = s_naux old /\ s_aux new <> s_aux old /\
  write empty out (lit "claw") 1 (lit "binary") true true false [old] = (fs1, None) /\
  write fs1 out (lit "claw") 1 (lit "binary") true false false [new] = (fs2, None) /\
  read bin_only zeros fs2 out (lit "claw") 1 (lit "binary") true = Ok [s'] /\ s_q s' = s_q new /\ s_aux s' = s_aux old.
Proof.
  do 2 eexists. exists (ex_state 0 1 2 3 4), (ex_state 1 5 6 7 8). eexists.
  split; [apply ex_storable|]. split; [apply ex_storable|]. split; [reflexivity|]. split; [discriminate|].
  split; [reflexivity|]. split; [reflexivity|]. split; [vm_compute; reflexivity|]. split; reflexivity.
Qed.
Theorem C114_frame_0_refuted :
  exists fs1 fs2 (old new : st), storable false old old /\ storable false new new /\
  write empty out (lit "claw") 0 (lit "binary") true true false [old] = (fs1, None) /\
  write fs1 out (lit "claw") 3 (lit "binary") true true false [new] = (fs2, None) /\
  read bin_only zeros fs2 out (lit "claw") 3 (lit "binary") true = Err NoArray /\
  exists s', read bin_only zeros fs2 out (lit "claw") 3 (lit "binary") false = Ok [s'] /\ s_q s' = s_q new.
Proof.
  do 2 eexists. exists (ex_state 0 1 2 3 4), (ex_bare 1 5 6).
  split; [apply ex_storable|]. split; [apply bare_storable|]. split; [reflexivity|]. split; [reflexivity|].
  split; [vm_compute; reflexivity|]. eexists. split; [vm_compute; reflexivity|reflexivity].
Qed.
(** C116: when a frame is written again and the writing stops after the metadata, or the format turns out to be unknown,
    the frame that comes back has the new time with the old values. *)
Theorem C116_rewritten_refuted :
  exists fs1 (old new s' : st), storable false old old /\ storable false new new /\ s_t new <> s_t old /\ s_q new <> s_q old /\
  write empty out (lit "claw") 1 (lit "binary") true false false [old] = (fs1, None) /\
  let os := fst (write_ops fs1 out (lit "claw") 1 (lit "binary") true false false [new]) in
  read bin_only zeros (execs (firstn 3 os) fs1) out (lit "claw") 1 (lit "binary") false = Ok [s'] /\
  s_t s' = s_t new /\ s_q s' = s_q old.
Proof.
  eexists. exists (ex_state 0 1 2 3 4), (ex_state 1 5 6 7 8). eexists.
  split; [apply ex_storable|]. split; [apply ex_storable|]. split; [discriminate|]. split; [discriminate|].
  split; [reflexivity|]. cbv zeta. split; [vm_compute; reflexivity|]. split; reflexivity.
Qed.
Theorem C116_failed_write_refuted :
  exists fs1 fs2 (old new s' : st), storable false old old /\ storable false new new /\ s_t new <> s_t old /\ s_q new <> s_q old /\
  write empty out (lit "claw") 1 (lit "binary") true false false [old] = (fs1, None) /\
  write fs1 out (lit "claw") 1 (lit "hdf") true false false [new] = (fs2, Some NoViewer) /\
  read bin_only zeros fs2 out (lit "claw") 1 (lit "binary") false = Ok [s'] /\
  s_t s' = s_t new /\ s_q s' = s_q old.
Proof.
  do 2 eexists. exists (ex_state 0 1 2 3 4), (ex_state 1 5 6 7 8). eexists.
  split; [apply ex_storable|]. split; [apply ex_storable|]. split; [discriminate|]. split; [discriminate|].
  split; [reflexivity|]. split; [reflexivity|]. split; [vm_compute; reflexivity|]. split; reflexivity.
Qed.
(** C117: the q file of the prefix 'claw_aux' is the aux file of the prefix 'claw'. *)
Theorem C117_prefix_refuted :
  exists fs1 fs2 (a b s1 s2 : st), storable false a a /\ storable false b b /\
  write empty out (lit "claw") 1 (lit "binary") true true false [a] = (fs1, None) /\
  read bin_only zeros fs1 out (lit "claw") 1 (lit "binary") true = Ok [s1] /\
  write fs1 out (lit "claw_aux") 1 (lit "binary") true false false [b] = (fs2, None) /\
  read bin_only zeros fs2 out (lit "claw") 1 (lit "binary") true = Ok [s2] /\
  s_aux s1 = s_aux a /\ s_aux s2 = Some (1%Z, s_q b) /\ s_aux s2 <> s_aux a.
Proof.
  do 2 eexists. exists (ex_state 0 1 2 3 4), (ex_state 1 5 6 7 8). do 2 eexists.
  split; [apply ex_storable|]. split; [apply ex_storable|]. split; [reflexivity|]. split; [vm_compute; reflexivity|].
  split; [reflexivity|]. split; [vm_compute; reflexivity|]. split; [reflexivity|]. split; [reflexivity|discriminate].
Qed.
(** C115: the second frame 12 is refused; frame 13 is written beside it *)
Example C115_example :
  exists fs1, write empty out (lit "claw") 12 (lit "binary") false true false [ex_state 1 2 3 4 5] = (fs1, None) /\
  snd (write fs1 out (lit "claw") 12 (lit "vtk") false true false [ex_state 7 6 7 8 9]) = Some Clobber /\
  snd (write fs1 out (lit "claw") 13 (lit "binary") false true false [ex_state 7 6 7 8 9]) = None.
Proof. eexists. split; [reflexivity|]. split; vm_compute; reflexivity. Qed.
Example C117_example : lit "claw" <> lit "fort" /\ lit "claw" <> lit "fort" ++ lit "_aux" /\ lit "fort" <> lit "claw" ++ lit "_aux".
Proof. repeat split; discriminate. Qed.
Print Assumptions C114_stale_refuted.
Print Assumptions C114_frame_0_refuted.
Print Assumptions C116_rewritten_refuted.
Print Assumptions C116_failed_write_refuted.
Print Assumptions C117_prefix_refuted.
