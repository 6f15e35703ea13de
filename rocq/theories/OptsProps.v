(** Formats and options of Solution.write and Solution.read. *)
From Coq Require Import Ascii String.
From Verif Require Import Base FormatModel HdfModel OptsModel OptsSpec.

Lemma teq a b : text_eqb a b = true <-> a = b.
Proof. unfold text_eqb. destruct (list_eq_dec ascii_dec a b); split; intro H; try assumption; try reflexivity; try discriminate; contradiction. Qed.
Lemma teq_refl a : text_eqb a a = true.
Proof. apply teq. reflexivity. Qed.
Lemma get_put k v x d : get x (put k v d) = if text_eqb x k then Some v else get x d.
Proof.
  induction d as [|(k', v') r IH]; cbn [put get]; [reflexivity|].
  destruct (text_eqb k k') eqn:E.
  - apply teq in E. subst k'. cbn [get]. destruct (text_eqb x k); reflexivity.
  - cbn [get]. rewrite IH. destruct (text_eqb x k') eqn:E1; [|reflexivity].
    apply teq in E1. subst k'. destruct (text_eqb x k) eqn:E2; [|reflexivity]. apply teq in E2. subst k.
    rewrite teq_refl in E. discriminate E.
Qed.
Lemma get_in k d : get k d <> None <-> In k (map fst d).
Proof.
  induction d as [|(k', v') r IH]; cbn [get map fst In]; [tauto|]. destruct (text_eqb k k') eqn:E.
  - apply teq in E. subst k'. split; [tauto|discriminate].
  - rewrite IH. split; [tauto|]. intros [K|K]; [|exact K]. subst k'. rewrite teq_refl in E. discriminate E.
Qed.

(** ** Filling in the defaults *)
Definition default (k : text) : option value := get k hdf_defaults.
(** [d] has what [e] has, and perhaps defaults of HDF5 *)
Definition filled (d e : dict) : Prop :=
  forall k, get k d = get k e \/ (get k e = None /\ exists v, default k = Some v /\ get k d = Some v).
Lemma filled_refl d : filled d d.
Proof. intro k. left. reflexivity. Qed.
Lemma filled_put d e k v : filled d e -> filled (put k v d) (put k v e).
Proof.
  intros H x. rewrite !get_put. destruct (text_eqb x k); [left; reflexivity|]. apply H.
Qed.
Lemma fill_get_fold k : forall l d, NoDup (map fst l) ->
  get k (fold_left (fun d kv => put (fst kv) (get_or (fst kv) (snd kv) d) d) l d) =
  match get k d with Some v => Some v | None => get k l end.
Proof.
  induction l as [|(k0, v0) l IH]; intros d N; cbn [fold_left map fst snd get] in *; [destruct (get k d); reflexivity|].
  apply NoDup_cons_iff in N. destruct N as (N1 & N2). rewrite (IH _ N2), get_put. unfold get_or.
  destruct (text_eqb k k0) eqn:E; [|reflexivity]. apply teq in E. subst k0.
  destruct (get k d); reflexivity.
Qed.
Lemma defaults_nodup : NoDup (map fst hdf_defaults).
Proof. repeat constructor; cbn; intros K; repeat (destruct K as [K|K]; [discriminate K|]); exact K. Qed.
Lemma fill_get k d : get k (fill d) = match get k d with Some v => Some v | None => default k end.
Proof. apply fill_get_fold. exact defaults_nodup. Qed.
Lemma filled_fill d e : filled d e -> filled (fill d) e.
Proof.
  intros H k. rewrite fill_get. destruct (H k) as [K|(K1 & v & K2 & K3)].
  - rewrite K. destruct (get k e) as [v|] eqn:E; [left; reflexivity|]. destruct (default k) as [v|] eqn:D; [|left; reflexivity].
    right. split; [reflexivity|]. exists v. split; reflexivity.
  - rewrite K3. right. split; [exact K1|]. exists v. split; [exact K2|reflexivity].
Qed.
Lemma fill_eq d e : filled d e -> forall k, get k (fill d) = get k (fill e).
Proof.
  intros H k. rewrite !fill_get. destruct (H k) as [K|(K1 & v & K2 & K3)]; [rewrite K; reflexivity|].
  rewrite K1, K3, K2. reflexivity.
Qed.
Lemma known_get d e : (forall k, get k d = get k e) ->
  forallb (fun kv : text * value => known (fst kv)) d = forallb (fun kv : text * value => known (fst kv)) e.
Proof.
  intro H.
  assert (K : forall a b, (forall k, get k a = get k b) -> forallb (fun kv : text * value => known (fst kv)) a = true ->
              forallb (fun kv : text * value => known (fst kv)) b = true).
  { intros a b G F. rewrite forallb_forall in *. intros (k, v) I. cbn [fst].
    assert (J : In k (map fst a)).
    { apply get_in. rewrite G. apply get_in. apply in_map_iff. exists (k, v). split; [reflexivity|exact I]. }
    apply in_map_iff in J. destruct J as ((k', v') & E & J). cbn [fst] in E. subst k'. exact (F _ J). }
  destruct (forallb _ d) eqn:E1, (forallb _ e) eqn:E2; try reflexivity.
  - rewrite (K d e H E1) in E2. discriminate E2.
  - rewrite (K e d (fun k => eq_sym (H k)) E2) in E1. discriminate E1.
Qed.
Lemma view_get m d e : (forall k, get k d = get k e) -> view m d = view m e.
Proof.
  intro H. assert (G : forall k v, get_or k v d = get_or k v e) by (intros; unfold get_or; rewrite H; reflexivity).
  unfold view. rewrite !G. rewrite (map_ext _ _ (fun kv => G (fst kv) (snd kv)) hdf_defaults), (map_ext _ _ H h5py_keywords). reflexivity.
Qed.
(** A key that no default has *)
Lemma filled_other d e k : filled d e -> default k = None -> get k d = get k e.
Proof. intros H N. destruct (H k) as [K|(_ & v & K & _)]; [exact K|congruence]. Qed.
Lemma view_filled m d e : text_eqb m (lit "hdf5") = false -> filled d e -> view m d = view m e.
Proof.
  intros N H. unfold view. rewrite N. unfold get_or.
  rewrite (filled_other d e (lit "clobber") H eq_refl), (filled_other d e (lit "format") H eq_refl), (filled_other d e (lit "binary") H eq_refl).
  reflexivity.
Qed.
Lemma write_one_filled pet f n d e : filled d e ->
  snd (write_one pet f n d) = snd (write_one pet f n e) /\ filled (fst (write_one pet f n d)) (fst (write_one pet f n e)).
Proof.
  intro H. unfold write_one. destruct (writer pet f) as [m|]; [|split; [reflexivity|exact H]].
  destruct (text_eqb m (lit "hdf5")) eqn:E; cbv zeta; cbn [fst snd].
  - pose proof (fill_eq d e H) as G. rewrite (known_get _ _ G), (view_get m _ _ G). unfold get_or. rewrite G.
    split; [reflexivity|]. intro k. left. apply G.
  - destruct (text_eqb m (lit "netcdf")); cbn [fst snd]; [split; [reflexivity|exact H]|].
    rewrite (view_filled m d e E H). split; [reflexivity|exact H].
Qed.
Lemma write_all_filled pet fmts : forall n d e, filled d e ->
  snd (write_all pet fmts n d) = snd (write_all pet fmts n e) /\
  fst (fst (write_all pet fmts n d)) = fst (fst (write_all pet fmts n e)) /\
  filled (snd (fst (write_all pet fmts n d))) (snd (fst (write_all pet fmts n e))).
Proof.
  induction fmts as [|f r IH]; intros n d e H; cbn [write_all]; [repeat split; assumption|].
  destruct (write_one_filled pet f n d e H) as (E1 & E2).
  destruct (write_one pet f n d) as [d1 o1], (write_one pet f n e) as [e1 o2]. cbn [fst snd] in E1, E2. subst o2.
  destruct o1 as [ev|er]; [|repeat split; assumption].
  match goal with |- context [write_all pet r ?c d1] => pose proof (IH c d1 e1 E2) as (F1 & F2 & F3);
    destruct (write_all pet r c d1) as [[a1 a2] [a3 a4]], (write_all pet r c e1) as [[b1 b2] [b3 b4]] end.
  cbn [fst snd] in *. injection F1 as <- <-. subst b1. repeat split; assumption.
Qed.
Lemma write_all_keeps pet fmts : forall n d e, filled d e -> filled (snd (fst (write_all pet fmts n d))) e.
Proof.
  assert (K1 : forall f n d e, filled d e -> filled (fst (write_one pet f n d)) e).
  { intros f n d e H. unfold write_one. destruct (writer pet f) as [m|]; [|exact H].
    destruct (text_eqb m (lit "hdf5")); cbv zeta; cbn [fst]; [apply filled_fill; exact H|].
    destruct (text_eqb m (lit "netcdf")); exact H. }
  induction fmts as [|f r IH]; intros n d e H; cbn [write_all]; [exact H|].
  specialize (K1 f n d e H). destruct (write_one pet f n d) as [d1 [ev|er]]; cbn [fst] in K1; [|exact K1].
  match goal with |- context [write_all pet r ?c d1] => specialize (IH c d1 e K1); destruct (write_all pet r c d1) as [[a1 a2] [a3 a4]] end.
  exact IH.
Qed.

Section Histories.
  Variable dicts0 : nat -> dict.
  Variable comps0 : nat -> nat.
  Lemma exec_all_snoc os a w : exec_all (os ++ [a]) w = fst (exec a (exec_all os w)).
  Proof. revert w. induction os as [|b os IH]; intro w; cbn [app exec_all]; [reflexivity|apply IH]. Qed.
  Lemma asked_snoc os a i : asked dicts0 (os ++ [a]) i =
    match a with Assign j k v => if Nat.eqb j i then put k v (asked dicts0 os i) else asked dicts0 os i | _ => asked dicts0 os i end.
  Proof. unfold asked. rewrite fold_left_app. reflexivity. Qed.
  Lemma filled_run i os : not_read i os -> filled (s_dicts (exec_all os (mkSession dicts0 comps0)) i) (asked dicts0 os i).
  Proof.
    induction os as [|a os IH] using rev_ind; intro N; [apply filled_refl|].
    assert (N' : not_read i os) by (intros p g h K; apply (N p g h); apply in_app_iff; left; exact K).
    specialize (IH N'). rewrite exec_all_snoc, asked_snoc. set (w := exec_all os (mkSession dicts0 comps0)) in *.
    destruct a as [j k v|pet sol j fmts|pet j given header]; cbn [exec].
    - cbn [fst s_dicts]. unfold upd. rewrite (Nat.eqb_sym i j). destruct (Nat.eqb_spec j i) as [E|E]; [|exact IH].
      subst j. apply filled_put. exact IH.
    - pose proof (write_all_keeps pet fmts (s_comps w sol) (s_dicts w j)) as K.
      destruct (write_all pet fmts (s_comps w sol) (s_dicts w j)) as [[n d] o]. cbn [fst snd] in *. cbn [s_dicts]. unfold upd.
      destruct (Nat.eqb_spec i j) as [E|E]; [|exact IH]. subst j. apply K. exact IH.
    - destruct (read_one pet given header (s_dicts w j)) as [d o]. cbn [fst s_dicts]. unfold upd.
      destruct (Nat.eqb_spec i j) as [E|E]; [|exact IH]. exfalso. subst j. apply (N pet given header).
      apply in_app_iff. right. left. reflexivity.
  Qed.
End Histories.

(** C127: an explicitly given format is the one that is read. Proved when there is no header file with this prefix, or
    it names the same format; *)
Theorem C127_given_format_partial pet i f header w :
  header = None \/ header = Some f ->
  snd (exec (Read pet i (Some f) header) w) =
  match reader pet f with
  | Some m => ([ReadBy m (VText (if text_eqb f (lit "petsc") then lit "binary" else f))], None)
  | None => ([], Some BadFormat)
  end.
Proof.
  intro H. cbn [exec]. unfold read_one.
  assert (E : (match header with Some h => Some h | None => Some f end) = Some f) by (destruct H as [-> | ->]; reflexivity).
  rewrite E. destruct (reader pet f) as [m|]; [|reflexivity]. cbv zeta. cbn [snd]. unfold get_or. rewrite get_put, teq_refl. reflexivity.
Qed.
Print Assumptions C127_given_format_partial.
(** otherwise the header decides: a frame written as ASCII and HDF5 with one prefix is read as ASCII though HDF5 is asked for. *)
Theorem C127_header_wins pet i given h w : snd (exec (Read pet i given (Some h)) w) = snd (exec (Read pet i (Some h) None) w).
Proof.
  cbn [exec]. unfold read_one. destruct (reader pet h) as [m|]; [|reflexivity]. reflexivity.
Qed.
Print Assumptions C127_header_wins.
Theorem C127_given_format_refuted : exists w i,
  snd (exec (Write false 0 i [lit "ascii"; lit "hdf5"]) w) = ([Wrote (lit "ascii") 3 SNone; Wrote (lit "hdf5") 3 (view (lit "hdf5") [])], None) /\
  reader false (lit "hdf5") = Some (lit "hdf5") /\
  snd (exec (Read false i (Some (lit "hdf5")) (Some (lit "ascii"))) w) = ([ReadBy (lit "ascii") (VText (lit "ascii"))], None).
Proof. exists (mkSession (fun _ => []) (fun _ => 3%nat)), 0%nat. repeat split; vm_compute; reflexivity. Qed.
Print Assumptions C127_given_format_refuted.
Example C127_example : snd (exec (Read false 0 (Some (lit "hdf5")) None) (mkSession (fun _ => []) (fun _ => 3%nat))) =
  ([ReadBy (lit "hdf5") (VText (lit "hdf5"))], None).
Proof. vm_compute. reflexivity. Qed.

(** C128: a call of write acts as with a dictionary that holds what the program has put into it, whatever has been
    written and read before. Proved for dictionaries that are not given to read; *)
Theorem C128_options_partial dicts0 comps0 os pet sol i fmts :
  not_read i os ->
  let w := exec_all os (mkSession dicts0 comps0) in
  snd (exec (Write pet sol i fmts) w) = snd (exec (Write pet sol i fmts) (mkSession (asked dicts0 os) (s_comps w))).
Proof.
  intros N w. pose proof (filled_run dicts0 comps0 i os N) as F. fold w in F.
  destruct (write_all_filled pet fmts (s_comps w sol) _ _ F) as (E & _). cbn [exec s_comps s_dicts].
  destruct (write_all pet fmts (s_comps w sol) (s_dicts w i)) as [[n d] o].
  destruct (write_all pet fmts (s_comps w sol) (asked dicts0 os i)) as [[n' d'] o']. exact E.
Qed.
Print Assumptions C128_options_partial.
(** what a call of read uses never depends on the dictionary or on earlier calls. *)
Theorem C128_reads pet i given header w w' :
  snd (exec (Read pet i given header) w) = snd (exec (Read pet i given header) w').
Proof.
  cbn [exec]. unfold read_one. destruct (match header with Some h => Some h | None => given end) as [f|]; [|reflexivity].
  destruct (reader pet f); [|reflexivity]. cbv zeta. cbn [snd]. unfold get_or. rewrite !get_put, teq_refl. reflexivity.
Qed.
Print Assumptions C128_reads.
(** A dictionary that has been given to read cannot be used for HDF5 output, and sets the format of PETSc output. *)
Theorem C128_options_refuted : exists dicts0 comps0 os,
  let w := exec_all os (mkSession dicts0 comps0) in
  (forall i, asked dicts0 os i = []) /\
  snd (exec (Write false 0 5 [lit "hdf5"]) w) = ([], Some BadKeyword) /\
  snd (exec (Write false 0 5 [lit "hdf5"]) (mkSession (asked dicts0 os) (s_comps w))) =
    ([Wrote (lit "hdf5") 1 (view (lit "hdf5") [])], None) /\
  snd (exec (Write true 0 5 [lit "petsc"]) w) = ([Wrote (lit "petsc") 1 (SPetsc (VBool true) (VText (lit "ascii")))], None) /\
  snd (exec (Write true 0 5 [lit "petsc"]) (mkSession (asked dicts0 os) (s_comps w))) =
    ([Wrote (lit "petsc") 1 (SPetsc (VBool true) (VText (lit "binary")))], None).
Proof.
  exists (fun _ => []), (fun _ => 1%nat), [Read false 5 (Some (lit "ascii")) None]. cbv zeta. split; [reflexivity|].
  repeat split; vm_compute; reflexivity.
Qed.
Print Assumptions C128_options_refuted.
(** The format that the program gives for reading PETSc frames is replaced by 'binary' *)
Theorem C128_petsc_format_refuted : exists d w,
  s_dicts w 0%nat = d /\ get (lit "format") d = Some (VText (lit "ascii")) /\
  snd (exec (Write true 0 0 [lit "petsc"]) w) = ([Wrote (lit "petsc") 1 (SPetsc (VBool true) (VText (lit "ascii")))], None) /\
  snd (exec (Read true 0 (Some (lit "petsc")) None) w) = ([ReadBy (lit "petsc") (VText (lit "binary"))], None).
Proof.
  exists [(lit "format", VText (lit "ascii"))], (mkSession (fun _ => [(lit "format", VText (lit "ascii"))]) (fun _ => 1%nat)).
  repeat split; vm_compute; reflexivity.
Qed.
Print Assumptions C128_petsc_format_refuted.
Example C128_example : let os := [Assign 5 (lit "compression") (VText (lit "gzip")); Write false 0 5 [lit "hdf5"]; Read false 1 (Some (lit "ascii")) None] in
  not_read 5 os /\
  snd (exec (Write false 0 5 [lit "hdf5"; lit "ascii"]) (exec_all os (mkSession (fun _ => []) (fun _ => 2%nat)))) =
    ([Wrote (lit "hdf5") 2 (SHdf [VText (lit "gzip"); VNone; VNone; VBool false; VBool false] [None; None; None; None]);
      Wrote (lit "ascii") 2 SNone], None).
Proof.
  split; [|vm_compute; reflexivity]. intros p g h [K|[K|[K|[]]]]; try discriminate K; congruence.
Qed.

(** C129: a list of formats: each is written, in this order, with the same components, or the call raises. The modules
    and their order; *)
Definition module_of (e : event) : text := match e with Wrote m _ _ => m | ReadBy m _ => m end.
Theorem C129_all_formats pet sol i fmts w evs err :
  snd (exec (Write pet sol i fmts) w) = (evs, err) ->
  exists done rest, fmts = done ++ rest /\ map (writer pet) done = map (fun e => Some (module_of e)) evs /\
    (err = None <-> rest = []).
Proof.
  cbn [exec]. intro H.
  assert (K : forall fs n d, exists done rest, fs = done ++ rest /\
     map (writer pet) done = map (fun e => Some (module_of e)) (fst (snd (write_all pet fs n d))) /\
     (snd (snd (write_all pet fs n d)) = None <-> rest = [])).
  { induction fs as [|f fs IH]; intros n d; cbn [write_all].
    - exists [], []. repeat split.
    - destruct (write_one pet f n d) as [d1 [ev|er]] eqn:E.
      + assert (M : writer pet f = Some (module_of ev)).
        { unfold write_one in E. destruct (writer pet f) as [m|]; [|discriminate E]. f_equal.
          destruct (text_eqb m (lit "hdf5")); cbv zeta in E.
          - apply (f_equal snd) in E. cbn [snd] in E. destruct (pet && _)%bool; [discriminate E|].
            destruct (forallb _ _); [|discriminate E]. apply (f_equal (fun x => match x with inl y => module_of y | inr _ => m end)) in E.
            exact E.
          - destruct (text_eqb m (lit "netcdf")); [discriminate E|]. injection E as _ <-. reflexivity. }
        match goal with |- context [write_all pet fs ?c d1] => destruct (IH c d1) as (done & rest & E1 & E2 & E3);
          destruct (write_all pet fs c d1) as [[a1 a2] [a3 a4]] end.
        cbn [fst snd] in *. exists (f :: done), rest. split; [cbn [app]; rewrite E1; reflexivity|].
        split; [cbn [map]; rewrite M, E2; reflexivity|exact E3].
      + cbn [fst snd]. exists [], (f :: fs). split; [reflexivity|]. split; [reflexivity|]. split; discriminate. }
  destruct (K fmts (s_comps w sol) (s_dicts w i)) as (done & rest & E1 & E2 & E3).
  destruct (write_all pet fmts (s_comps w sol) (s_dicts w i)) as [[n d] o]. cbn [fst snd] in *. subst o. cbn [fst snd] in *.
  exists done, rest. repeat split; try assumption; apply E3.
Qed.
Print Assumptions C129_all_formats.
(** the components, when VTK comes last; *)
Theorem C129_same_components_partial pet sol i fmts w evs err e :
  snd (exec (Write pet sol i fmts) w) = (evs, err) ->
  (forall f, In f (removelast fmts) -> f <> lit "vtk" /\ f <> lit "claw_vtk") ->
  In e evs -> exists m s, e = Wrote m (s_comps w sol) s.
Proof.
  cbn [exec]. intro H.
  assert (K : forall fs n d, (forall f, In f (removelast fs) -> f <> lit "vtk" /\ f <> lit "claw_vtk") ->
     forall e, In e (fst (snd (write_all pet fs n d))) -> exists m s, e = Wrote m n s).
  { induction fs as [|f fs IH]; intros n d V x; cbn [write_all]; [intros []|].
    destruct (write_one pet f n d) as [d1 [ev|er]] eqn:E; [|intros []].
    assert (M : exists m s, ev = Wrote m n s /\ writer pet f = Some m).
    { unfold write_one in E. destruct (writer pet f) as [m|]; [|discriminate E].
      destruct (text_eqb m (lit "hdf5")); cbv zeta in E.
      - apply (f_equal snd) in E. cbn [snd] in E. destruct (pet && _)%bool; [discriminate E|].
        destruct (forallb _ _); [|discriminate E]. exists m. eexists. split; [|reflexivity].
        apply (f_equal (fun y => match y with inl z => z | inr _ => ev end)) in E. cbn beta iota in E. symmetry. exact E.
      - destruct (text_eqb m (lit "netcdf")); [discriminate E|]. injection E as _ <-. eexists. eexists. split; reflexivity. }
    destruct M as (m & s & -> & M).
    destruct fs as [|g fs].
    - cbn. intros [<-|[]]. exists m, s. reflexivity.
    - assert (Nv : text_eqb m (lit "claw_vtk") = false).
      { destruct (text_eqb m (lit "claw_vtk")) eqn:T; [exfalso|reflexivity]. apply teq in T. subst m.
        destruct (V f (or_introl eq_refl)) as (V1 & V2). unfold writer in M. destruct pet.
        - destruct (occurs _ f); [discriminate M|]. destruct (occurs _ f); discriminate M.
        - unfold write_module in M. destruct (HdfModel.text_eqb f (lit "forestclaw")); [discriminate M|].
          destruct (HdfModel.text_eqb f (lit "vtk")) eqn:T; [apply teq in T; contradiction|].
          destruct (existsb _ _); [|discriminate M]. injection M as M. contradiction. }
      rewrite Nv.
      pose proof (IH n d1 (fun y Hy => V y (or_intror Hy))) as IH'.
      destruct (write_all pet (g :: fs) n d1) as [[a1 a2] [a3 a4]]. cbn [fst snd] in *.
      intros [<-|I]; [exists m, s; reflexivity|exact (IH' x I)]. }
  intros V I. apply (K fmts (s_comps w sol) (s_dicts w i) V).
  destruct (write_all pet fmts (s_comps w sol) (s_dicts w i)) as [[n d] o]. cbn [fst snd] in *. subst o. exact I.
Qed.
Print Assumptions C129_same_components_partial.
(** a format after VTK is written with the overlap marks as another component. *)
Theorem C129_same_components_refuted : exists w,
  snd (exec (Write false 0 0 [lit "vtk"; lit "ascii"]) w) = ([Wrote (lit "claw_vtk") 3 (SVtk (VBool false)); Wrote (lit "ascii") 4 SNone], None).
Proof. exists (mkSession (fun _ => []) (fun _ => 3%nat)). vm_compute. reflexivity. Qed.
Print Assumptions C129_same_components_refuted.
Example C129_example : snd (exec (Write false 0 0 [lit "ascii"; lit "vtk"; lit "netcdf"; lit "hdf5"]) (mkSession (fun _ => []) (fun _ => 3%nat))) =
  ([Wrote (lit "ascii") 3 SNone; Wrote (lit "claw_vtk") 3 (SVtk (VBool false))], Some NoNetcdf).
Proof. vm_compute. reflexivity. Qed.

(** Which options HDF5 output accepts *)
Theorem C128_hdf5_keywords sol i w :
  (exists ev, snd (exec (Write false sol i [lit "hdf5"]) w) = ([ev], None)) <->
  (forall k, get k (s_dicts w i) <> None ->
     In k [lit "compression"; lit "compression_opts"; lit "chunks"; lit "shuffle"; lit "fletcher32";
           lit "maxshape"; lit "fillvalue"; lit "scaleoffset"; lit "track_times"]).
Proof.
  cbn [exec]. set (d := s_dicts w i).
  assert (Kn : forall k, known k = true <-> In k [lit "compression"; lit "compression_opts"; lit "chunks"; lit "shuffle"; lit "fletcher32";
           lit "maxshape"; lit "fillvalue"; lit "scaleoffset"; lit "track_times"]).
  { intro k. unfold known. rewrite existsb_exists. split.
    - intros (x & I & E). apply teq in E. subst x. exact I.
    - intro I. exists k. split; [exact I|apply teq_refl]. }
  assert (F : forallb (fun kv : text * value => known (fst kv)) (fill d) = true <-> forall k, get k d <> None -> known k = true).
  { rewrite forallb_forall. split.
    - intros H k G. assert (J : In k (map fst (fill d))).
      { apply get_in. rewrite fill_get. destruct (get k d); [discriminate|contradiction]. }
      apply in_map_iff in J. destruct J as (kv & <- & J). exact (H kv J).
    - intros H (k, v) I. cbn [fst]. assert (J : get k (fill d) <> None).
      { apply get_in. apply in_map_iff. exists (k, v). split; [reflexivity|exact I]. }
      rewrite fill_get in J. destruct (get k d) eqn:E; [apply H; rewrite E; discriminate|].
      unfold known. apply existsb_exists. exists k. split; [|apply teq_refl]. apply in_app_iff. left. apply get_in. exact J. }
  assert (W : writer false (lit "hdf5") = Some (lit "hdf5")) by reflexivity.
  cbn [write_all]. unfold write_one. rewrite W. change (text_eqb (lit "hdf5") (lit "hdf5")) with true. cbn [andb]. cbv zeta.
  destruct (forallb _ (fill d)) eqn:E; cbn [snd].
  - split; [|intros _; eexists; reflexivity]. intros _ k G. apply Kn. apply F; [reflexivity|exact G].
  - split; [intros (ev & K); discriminate K|]. intro H. exfalso.
    assert (X : false = true); [|discriminate X]. apply F. intros k G. apply Kn. apply H. exact G.
Qed.
Print Assumptions C128_hdf5_keywords.
(** Petclaw reads the formats 'petsc' and 'hdf5' and no other, though it writes every format whose name contains one of them *)
Theorem C127_petclaw_formats i f w :
  snd (exec (Read true i (Some f) None) w) <> ([], Some BadFormat) <-> f = lit "petsc" \/ f = lit "hdf5".
Proof.
  cbn [exec]. unfold read_one, reader. destruct (text_eqb f (lit "petsc")) eqn:E1.
  - apply teq in E1. split; [left; exact E1|]. intros _. cbv zeta. cbn [snd]. discriminate.
  - destruct (text_eqb f (lit "hdf5")) eqn:E2.
    + apply teq in E2. split; [right; exact E2|]. intros _. cbv zeta. cbn [snd]. discriminate.
    + split; [intro K; exfalso; apply K; reflexivity|]. intros [K|K]; subst f; discriminate.
Qed.
Print Assumptions C127_petclaw_formats.
Example C127_petclaw_example :
  snd (exec (Write true 0 0 [lit "my_petsc"]) (mkSession (fun _ => []) (fun _ => 3%nat))) =
    ([Wrote (lit "petsc") 3 (SPetsc (VBool true) (VText (lit "binary")))], None) /\
  snd (exec (Read true 0 (Some (lit "my_petsc")) None) (mkSession (fun _ => []) (fun _ => 3%nat))) = ([], Some BadFormat).
Proof. split; vm_compute; reflexivity. Qed.
(** Each VTK file written leaves the solution with one component more; nothing else changes the number, here or in
    another solution. *)
Definition vtk_files (evs : list event) : nat := length (filter (fun e => text_eqb (module_of e) (lit "claw_vtk")) evs).
Theorem C129_components_after a w sol :
  s_comps (fst (exec a w)) sol =
  (s_comps w sol + match a with Write _ s _ _ => if Nat.eqb s sol then vtk_files (fst (snd (exec a w))) else 0 | _ => 0 end)%nat.
Proof.
  assert (K : forall pet fs n d, fst (fst (write_all pet fs n d)) = (n + vtk_files (fst (snd (write_all pet fs n d))))%nat).
  { intros pet. induction fs as [|f fs IH]; intros n d; cbn [write_all]; [cbn; lia|].
    destruct (write_one pet f n d) as [d1 [ev|er]] eqn:E; [|cbn; lia].
    assert (W : exists m k s, ev = Wrote m k s).
    { unfold write_one in E. destruct (writer pet f) as [m|]; [|discriminate E].
      destruct (text_eqb m (lit "hdf5")); cbv zeta in E.
      - apply (f_equal snd) in E. cbn [snd] in E. destruct (pet && _)%bool; [discriminate E|].
        destruct (forallb _ _); [|discriminate E]. eexists. eexists. eexists.
        apply (f_equal (fun y => match y with inl z => z | inr _ => ev end)) in E. cbn beta iota in E. symmetry. exact E.
      - destruct (text_eqb m (lit "netcdf")); [discriminate E|]. injection E as _ <-. eexists. eexists. eexists. reflexivity. }
    destruct W as (m & k & s & ->).
    match goal with |- context [write_all pet fs ?c d1] => specialize (IH c d1); destruct (write_all pet fs c d1) as [[a1 a2] [a3 a4]] end.
    cbn [fst snd] in *. rewrite IH. unfold vtk_files. cbn [filter module_of]. destruct (text_eqb m (lit "claw_vtk")); cbn [length]; lia. }
  destruct a as [j k v|pet s j fmts|pet j given header]; cbn [exec].
  - cbn [fst s_comps]. lia.
  - specialize (K pet fmts (s_comps w s) (s_dicts w j)).
    destruct (write_all pet fmts (s_comps w s) (s_dicts w j)) as [[n d] o]. cbn [fst snd] in *. cbn [s_comps]. unfold upd.
    rewrite Nat.eqb_sym. destruct (Nat.eqb_spec s sol) as [->|_]; [exact K|lia].
  - destruct (read_one pet given header (s_dicts w j)) as [d o]. cbn [fst s_comps]. lia.
Qed.
Print Assumptions C129_components_after.
Example C129_components_example :
  s_comps (exec_all [Write false 0 0 [lit "vtk"]; Write false 1 0 [lit "ascii"]; Write false 0 0 [lit "claw_vtk"; lit "ascii"]]
             (mkSession (fun _ => []) (fun _ => 3%nat))) 0%nat = 5%nat.
Proof. vm_compute. reflexivity. Qed.
