(** Command line arguments: C121 (keywords reach the application), C122 (nothing is dropped). *)
From Coq Require Import Ascii String.
From Verif Require Import Base FormatModel ArgModel ArgSpec.

Lemma eqb_true a b : text_eqb a b = true <-> a = b.
Proof. unfold text_eqb. destruct (list_eq_dec ascii_dec a b); intuition congruence. Qed.
Lemma eqb_false a b : text_eqb a b = false <-> a <> b.
Proof. unfold text_eqb. destruct (list_eq_dec ascii_dec a b); intuition congruence. Qed.
Lemma eqb_refl a : text_eqb a a = true. Proof. apply eqb_true. reflexivity. Qed.
Lemma eqb_sym a b : text_eqb a b = text_eqb b a.
Proof. destruct (text_eqb a b) eqn:E; symmetry; [apply eqb_true; apply eqb_true in E|apply eqb_false; apply eqb_false in E]; congruence. Qed.

Lemma count_0 s : count_eq s = 0%nat <-> ~ In c_eq s.
Proof.
  unfold count_eq. induction s as [|c s IH]; [cbn; intuition|]. cbn [filter]. destruct (Ascii.eqb_spec c_eq c) as [E|E].
  - cbn [length]. split; [discriminate|]. intro H. exfalso. apply H. left. congruence.
  - rewrite IH. cbn [In]. intuition congruence.
Qed.
Lemma count_app a b : count_eq (a ++ b) = (count_eq a + count_eq b)%nat.
Proof. unfold count_eq. rewrite filter_app, app_length. reflexivity. Qed.
Lemma count_cons s : count_eq (c_eq :: s) = S (count_eq s).
Proof. unfold count_eq. cbn [filter]. rewrite Ascii.eqb_refl. reflexivity. Qed.
Lemma split_key k v : ~ In c_eq k -> split_eq (k ++ c_eq :: v) = (k, v).
Proof.
  induction k as [|c k IH]; intro H; cbn [app split_eq].
  - rewrite Ascii.eqb_refl. reflexivity.
  - destruct (Ascii.eqb_spec c c_eq) as [E|E]; [exfalso; apply H; left; exact E|]. rewrite IH; [reflexivity|]. intro K. apply H. right. exact K.
Qed.
(** an argument with one equals sign is a setting, of the key before it *)
Lemma count_1 s : count_eq s = 1%nat <-> is_setting (fst (split_eq s)) (snd (split_eq s)) s.
Proof.
  split.
  - induction s as [|c s IH]; [discriminate|]. cbn [split_eq]. intro H. destruct (Ascii.eqb_spec c c_eq) as [E|E].
    + subst c. rewrite count_cons in H. split; [reflexivity|]. cbn [fst snd]. split; [intros []|]. apply count_0. lia.
    + assert (H' : count_eq s = 1%nat).
      { unfold count_eq in *. cbn [filter] in H. destruct (Ascii.eqb_spec c_eq c); [congruence|exact H]. }
      specialize (IH H'). destruct (split_eq s) as [k v]. cbn [fst snd] in *. destruct IH as (A & B & C).
      split; [cbn [app]; congruence|]. split; [|exact C]. intros [K|K]; [congruence|contradiction].
  - intros (A & B & C). rewrite A. rewrite count_app, count_cons. apply count_0 in B. apply count_0 in C. rewrite B, C. reflexivity.
Qed.
Lemma setting_unique k v s : is_setting k v s -> count_eq s = 1%nat /\ split_eq s = (k, v).
Proof.
  intros (A & B & C). rewrite A. split; [|apply split_key, B]. rewrite count_app, count_cons.
  apply count_0 in B. apply count_0 in C. rewrite B, C. reflexivity.
Qed.

Section Arguments.
Variable J : Type.
Variable json_loads : text -> option (value J).
Variable truthy_json : J -> bool.
Notation add_arg := (ArgModel.add_arg J json_loads).
Notation convert := (ArgModel.convert J json_loads).
Notation run_app := (ArgModel.run_app J json_loads truthy_json).
Notation get := (ArgModel.get J).
Notation put := (ArgModel.put J).

Lemma get_put k k' v d : get k (put k' v d) = if text_eqb k k' then Some v else get k d.
Proof.
  induction d as [|[a w] d IH]; [reflexivity|]. cbn [ArgModel.put]. destruct (text_eqb k' a) eqn:E.
  - apply eqb_true in E. subst a. cbn [ArgModel.get]. destruct (text_eqb k k'); reflexivity.
  - cbn [ArgModel.get]. rewrite IH. destruct (text_eqb k a) eqn:F; [|reflexivity].
    apply eqb_true in F. subst a. rewrite eqb_sym, E. reflexivity.
Qed.
Lemma put_keys k v d : NoDup (map fst d) -> NoDup (map fst (put k v d)).
Proof.
  assert (I : forall d x, In x (map fst (put k v d)) -> x = k \/ In x (map fst d)).
  { clear. induction d as [|[a w] d IH]; intros x H; cbn [ArgModel.put map fst] in *; [cbn in H; intuition|].
    destruct (text_eqb k a) eqn:E; cbn [map fst] in *.
    - apply eqb_true in E. subst a. destruct H as [H|H]; [left; congruence|right; right; exact H].
    - destruct H as [H|H]; [right; left; exact H|]. destruct (IH x H); [left|right; right]; assumption. }
  induction d as [|[a w] d IH]; intro N; cbn [ArgModel.put map fst] in *; [constructor; [intros []|constructor]|].
  destruct (text_eqb k a) eqn:E; cbn [map fst].
  - apply eqb_true in E. subst a. exact N.
  - apply NoDup_cons_iff in N. destruct N as (N1 & N2). constructor; [|apply IH, N2]. intro H. apply I in H.
    destruct H as [H|H]; [apply eqb_false in E; congruence|contradiction].
Qed.
Lemma convert_meaning t : stands_for json_loads t (convert t).
Proof.
  unfold ArgModel.convert. destruct (json_loads t) as [[u|b|j]|] eqn:E.
  - destruct (text_eqb u (lit "True")) eqn:T; [apply eqb_true in T; subst u; apply StandsTrue; right; exact E|].
    destruct (text_eqb u (lit "False")) eqn:F; [apply eqb_true in F; subst u; apply StandsFalse; right; exact E|].
    apply eqb_false in T. apply eqb_false in F. apply (StandsJson json_loads t (VStr J u)); [exact E| |]; intro K; congruence.
  - apply (StandsJson json_loads t (VBool J b)); [exact E|discriminate|discriminate].
  - apply (StandsJson json_loads t (VJson J j)); [exact E|discriminate|discriminate].
  - destruct (text_eqb t (lit "True")) eqn:T; [apply eqb_true in T; apply StandsTrue; left; exact T|].
    destruct (text_eqb t (lit "False")) eqn:F; [apply eqb_true in F; apply StandsFalse; left; exact F|].
    apply eqb_false in T. apply eqb_false in F. apply StandsText; assumption.
Qed.

(** the dictionary after some arguments *)
Lemma add_get acc s k : k <> [] -> 
  (forall v, is_setting k v s -> get k (snd (add_arg acc s)) = Some (convert v)) /\
  ((forall v, ~ is_setting k v s) -> get k (snd (add_arg acc s)) = get k (snd acc)).
Proof.
  intro Hk. destruct acc as [args kw]. split.
  - intros v S. destruct (setting_unique k v s S) as (C & E). unfold ArgModel.add_arg. rewrite C, E. cbn [Nat.eqb].
    destruct k as [|c k]; [congruence|]. cbn [snd]. rewrite get_put, eqb_refl. reflexivity.
  - intro N. unfold ArgModel.add_arg. destruct (Nat.eqb_spec (count_eq s) 1) as [C|C]; [|reflexivity].
    apply count_1 in C. destruct (split_eq s) as [k' v']. cbn [fst snd] in C. destruct k' as [|c k']; [reflexivity|].
    cbn [snd]. rewrite get_put. destruct (text_eqb k (c :: k')) eqn:E; [|reflexivity]. apply eqb_true in E. subst k. exfalso. exact (N v' C).
Qed.
Lemma info_get args k : k <> [] -> ~ In c_eq k ->
  forall x, get k (snd (fold_left add_arg args ([], []))) = Some x <-> exists v, last_setting k v args /\ x = convert v.
Proof.
  intros Hk Ek. induction args as [|s args IH] using rev_ind; intro x.
  - cbn. split; [discriminate|]. intros (v & (pre & s & post & E & _) & _). destruct pre; discriminate E.
  - rewrite fold_left_app. cbn [fold_left]. destruct (add_get (fold_left add_arg args ([], [])) s k Hk) as (A & B).
    destruct (Bool.bool_dec (Nat.eqb (count_eq s) 1 && text_eqb (fst (split_eq s)) k) true) as [C|C].
    + apply Bool.andb_true_iff in C. destruct C as (C1 & C2). apply Nat.eqb_eq, count_1 in C1. apply eqb_true in C2. rewrite C2 in C1.
      rewrite (A _ C1). split.
      * intro E. exists (snd (split_eq s)). split; [|congruence]. exists args, s, []. split; [reflexivity|]. split; [exact C1|intros ? ? []].
      * intros (v & (pre & s0 & post & E & S & L) & X). subst x. f_equal. f_equal.
        destruct post as [|p post] using rev_ind.
        -- apply app_inj_tail in E. destruct E as (_ & E). subst s0.
           destruct (setting_unique _ _ _ S) as (_ & F1). destruct (setting_unique _ _ _ C1) as (_ & F2). congruence.
        -- exfalso. clear IHpost. rewrite app_comm_cons, app_assoc in E. apply app_inj_tail in E. destruct E as (_ & E). subst p.
           apply (L s (snd (split_eq s))); [apply in_or_app; right; left; reflexivity|exact C1].
    + assert (N : forall v, ~ is_setting k v s).
      { intros v S. apply C. destruct (setting_unique _ _ _ S) as (F1 & F2). rewrite F1, F2. cbn [fst]. rewrite eqb_refl. reflexivity. }
      rewrite (B N), IH. split; intros (v & (pre & s0 & post & E & S & L) & X); exists v; (split; [|exact X]).
      * exists pre, s0, (post ++ [s]). split; [rewrite E, <- app_assoc; reflexivity|]. split; [exact S|].
        intros s' v' H. apply in_app_or in H. destruct H as [H|[H|[]]]; [apply L; exact H|subst s'; apply N].
      * destruct post as [|p post] using rev_ind.
        -- exfalso. apply app_inj_tail in E. destruct E as (_ & E). subst s0. exact (N v S).
        -- clear IHpost. rewrite app_comm_cons, app_assoc in E. apply app_inj_tail in E. destruct E as (E & _).
           exists pre, s0, post. split; [exact E|]. split; [exact S|]. intros s' v' H. apply L. apply in_or_app. left. exact H.
Qed.
Lemma info_keys args : NoDup (map fst (snd (fold_left add_arg args ([], [])))) /\
  Forall (fun kv => fst kv <> [] /\ ~ In c_eq (fst kv)) (snd (fold_left add_arg args ([], []))).
Proof.
  induction args as [|s args (IH1 & IH2)] using rev_ind; [split; constructor|]. rewrite fold_left_app. cbn [fold_left].
  destruct (fold_left add_arg args ([], [])) as [a kw]. cbn [snd] in *. unfold ArgModel.add_arg.
  destruct (Nat.eqb_spec (count_eq s) 1) as [C|C]; [|split; assumption]. apply count_1 in C. destruct (split_eq s) as [[|c k] v]; [split; assumption|].
  cbn [fst snd] in *. split; [apply put_keys, IH1|]. destruct C as (_ & C & _). clear IH1. induction kw as [|[k' w] kw IH]; cbn [ArgModel.put].
  - constructor; [split; [discriminate|exact C]|constructor].
  - apply Forall_cons_iff in IH2. destruct (text_eqb (c :: k) k'); constructor; try (apply IH2); [split; [discriminate|exact C]|apply IH, IH2].
Qed.
Lemma get_filter f k (d : dict J) : NoDup (map fst d) -> get k (filter (fun kv => f (fst kv)) d) = if f k then get k d else None.
Proof.
  induction d as [|[a w] d IH]; intro N; cbn [filter fst]; [destruct (f k); reflexivity|].
  cbn [map fst] in N. apply NoDup_cons_iff in N. destruct N as (N1 & N2). destruct (f a) eqn:F; cbn [ArgModel.get].
  - destruct (text_eqb k a) eqn:E; [apply eqb_true in E; subst a; rewrite F; reflexivity|apply IH, N2].
  - rewrite (IH N2). destruct (text_eqb k a) eqn:E; [|reflexivity]. apply eqb_true in E. subst a. rewrite F. reflexivity.
Qed.

(** C121: the application is given exactly the keys set on the command line, except htmlplot and iplot, each once and with
    the value that the last setting of it stands for (JSON, True, False or the text itself). *)
Theorem C121_keywords :
  forall prog args key x,
  let app := l_app J (run_app (prog :: args)) in
  NoDup (map fst app) /\
  (In (key, x) app <-> key <> [] /\ key <> lit "htmlplot" /\ key <> lit "iplot" /\
     exists v, last_setting key v args /\ x = convert v /\ stands_for json_loads v x).
Proof.
  intros prog args key x. cbv zeta. unfold ArgModel.run_app, info_from_argv. cbn [l_app tl].
  destruct (info_keys args) as (ND & KS). set (d := snd (fold_left add_arg args ([], []))) in *.
  set (f := fun k : text => negb (text_eqb k (lit "htmlplot") || text_eqb k (lit "iplot"))).
  change (filter _ d) with (filter (fun kv : text * value J => f (fst kv)) d).
  assert (ND' : NoDup (map fst (filter (fun kv : text * value J => f (fst kv)) d))).
  { clear -ND. induction d as [|[a w] d IH]; [constructor|]. cbn [map fst] in ND. apply NoDup_cons_iff in ND. destruct ND as (N1 & N2).
    cbn [filter fst]. destruct (f a); [|apply IH, N2]. cbn [map fst]. constructor; [|apply IH, N2].
    intro H. apply N1. apply in_map_iff in H. destruct H as ([b u] & E & H). apply filter_In in H. cbn [fst] in E. subst b.
    apply in_map_iff. exists (a, u). split; [reflexivity|apply H]. }
  split; [exact ND'|].
  assert (GI : forall (d : dict J), NoDup (map fst d) -> (In (key, x) d <-> get key d = Some x)).
  { clear. induction d as [|[a w] d IH]; intro N; cbn [ArgModel.get In]; [split; [intros []|discriminate]|].
    cbn [map fst] in N. apply NoDup_cons_iff in N. destruct N as (N1 & N2). destruct (text_eqb key a) eqn:E.
    - apply eqb_true in E. subst a. split; [intros [H|H]; [congruence|]|intro H; left; congruence].
      exfalso. apply N1. apply in_map_iff. exists (key, x). split; [reflexivity|exact H].
    - rewrite <- (IH N2). split; [intros [H|H]; [|exact H]|intro H; right; exact H]. exfalso. apply eqb_false in E. congruence. }
  rewrite (GI _ ND'), (get_filter f key d ND). unfold f. split.
  - destruct (text_eqb key (lit "htmlplot")) eqn:E1; [discriminate|]. destruct (text_eqb key (lit "iplot")) eqn:E2; [discriminate|]. cbn [orb negb].
    intro G. apply eqb_false in E1. apply eqb_false in E2.
    assert (K : key <> [] /\ ~ In c_eq key).
    { apply (GI d ND) in G. rewrite Forall_forall in KS. exact (KS _ G). }
    split; [apply K|]. split; [exact E1|]. split; [exact E2|].
    apply (info_get args key (proj1 K) (proj2 K)) in G. destruct G as (v & L & X). exists v. split; [exact L|]. split; [exact X|].
    subst x. apply convert_meaning.
  - intros (K1 & E1 & E2 & v & L & X & _). apply eqb_false in E1. apply eqb_false in E2. rewrite E1, E2. cbn [orb negb].
    apply info_get; [exact K1| |exists v; split; assumption]. destruct L as (_ & s & _ & _ & (_ & B & _) & _). exact B.
Qed.

(** The plotting functions are told by the last settings of htmlplot, iplot and outdir. *)
Lemma l_flag args key : key <> [] -> ~ In c_eq key ->
  (get_bool J truthy_json key (snd (info_from_argv J json_loads (lit "p" :: args))) = true
   <-> exists v, last_setting key v args /\ truthy J truthy_json (convert v) = true).
Proof.
  intros K1 K2. unfold get_bool, info_from_argv. cbn [tl]. pose proof (info_get args key K1 K2) as G.
  destruct (get key (snd (fold_left add_arg args ([], [])))) as [x|] eqn:E.
  - pose proof (proj1 (G x) eq_refl) as (v & L & X). split.
    + intro T. exists v. split; [exact L|]. rewrite <- X. exact T.
    + intros (w & L' & T). pose proof (proj2 (G (convert w)) (ex_intro _ w (conj L' eq_refl))) as S. congruence.
  - split; [discriminate|]. intros (w & L' & T). pose proof (proj2 (G (convert w)) (ex_intro _ w (conj L' eq_refl))) as S. discriminate S.
Qed.
Theorem C121_plotting :
  forall prog args,
  let l := run_app (prog :: args) in
  (l_htmlplot J l = true <-> exists v, last_setting (lit "htmlplot") v args /\ truthy J truthy_json (convert v) = true) /\
  (l_iplot J l = true <-> exists v, last_setting (lit "iplot") v args /\ truthy J truthy_json (convert v) = true) /\
  (forall x, l_outdir J l = Some x <-> exists v, last_setting (lit "outdir") v args /\ x = convert v).
Proof.
  intros prog args. cbv zeta.
  split; [apply (l_flag args (lit "htmlplot")); [discriminate|cbn; intuition discriminate]|].
  split; [apply (l_flag args (lit "iplot")); [discriminate|cbn; intuition discriminate]|].
  intro x. apply (info_get args (lit "outdir")); [discriminate|cbn; intuition discriminate].
Qed.

(** C122, in part: an argument without an equals sign is passed to PETSc, in order and with -- replaced by -, if PETSc is
    used; one with one equals sign that does not come first sets a key (C121). All others are dropped: they reach
    neither PETSc nor the application. *)
Theorem C122_passed_on_partial :
  forall prog args s, In s args ->
  let l := run_app (prog :: args) in
  (~ In c_eq s -> forall petsc, l_petsc J l = Some petsc -> In (undash s) petsc) /\
  (forall key v, is_setting key v s -> key <> [] -> exists v', last_setting key v' args).
Proof.
  intros prog args s H. cbv zeta. split.
  - intros N petsc E. unfold ArgModel.run_app in E. cbn [l_petsc tl] in E. destruct (get_bool _ _ _ _); [|discriminate].
    apply (f_equal (fun o => match o with Some u => u | None => [] end)) in E. cbn beta iota in E. subst petsc. apply in_map, filter_In. split; [exact H|]. apply Nat.eqb_eq, count_0, N.
  - intros key v S K. clear K. revert H. induction args as [|a args IH] using rev_ind; [intros []|]. intro H.
    destruct (Bool.bool_dec (Nat.eqb (count_eq a) 1 && text_eqb (fst (split_eq a)) key) true) as [C|C].
    + apply Bool.andb_true_iff in C. destruct C as (C1 & C2). apply Nat.eqb_eq, count_1 in C1. apply eqb_true in C2. rewrite C2 in C1.
      exists (snd (split_eq a)). exists args, a, []. split; [reflexivity|]. split; [exact C1|intros ? ? []].
    + assert (N : forall v, ~ is_setting key v a).
      { intros w W. apply C. destruct (setting_unique _ _ _ W) as (F1 & F2). rewrite F1, F2. cbn [fst]. rewrite eqb_refl. reflexivity. }
      apply in_app_or in H. destruct H as [H|[H|[]]]; [|subst a; exfalso; exact (N v S)].
      destruct (IH H) as (v' & pre & s0 & post & E & S' & L). exists v'. exists pre, s0, (post ++ [a]).
      split; [rewrite E, <- app_assoc; reflexivity|]. split; [exact S'|].
      intros s' w W. apply in_app_or in W. destruct W as [W|[W|[]]]; [apply L; exact W|subst s'; apply N].
Qed.
Lemma undash_single s : single_dashes s (undash s).
Proof.
  assert (H : forall n s, (length s <= n)%nat -> single_dashes s (undash s)).
  { clear. induction n as [|n IH]; intros s L; [destruct s; [constructor|cbn in L; lia]|].
    destruct s as [|c [|d r]]; [constructor|cbn; constructor; [intros (_ & r & E); discriminate|constructor]|].
    change (undash (c :: d :: r)) with (if (Ascii.eqb c c_dash && Ascii.eqb d c_dash)%bool then c_dash :: undash r else c :: undash (d :: r)).
    destruct (Ascii.eqb_spec c c_dash) as [C|C]; cbn [andb].
    - destruct (Ascii.eqb_spec d c_dash) as [D|D].
      + subst c d. apply DashDouble, IH. cbn [length] in L. lia.
      + apply DashKeep; [|apply IH; cbn [length] in *; lia]. intros (_ & r' & E). congruence.
    - apply DashKeep; [intros (E & _); contradiction|]. apply IH. cbn [length] in *. lia. }
  apply (H (length s)). lia.
Qed.
(** PETSc, if used, is given all arguments without an equals sign, in order, with -- replaced by - *)
Theorem C122_petsc :
  forall prog args petsc, l_petsc J (run_app (prog :: args)) = Some petsc ->
  Forall2 single_dashes (filter (fun a => negb (existsb (Ascii.eqb c_eq) a)) args) petsc.
Proof.
  intros prog args petsc E. unfold ArgModel.run_app in E. cbn [l_petsc tl] in E. destruct (get_bool _ _ _ _); [|discriminate].
  apply (f_equal (fun o => match o with Some u => u | None => [] end)) in E. cbn beta iota in E. subst petsc.
  rewrite (filter_ext (fun a => negb (existsb (Ascii.eqb c_eq) a)) (fun a => Nat.eqb (count_eq a) 0)).
  - assert (M : forall l, Forall2 single_dashes l (map undash l)).
    { induction l as [|a l IH]; [constructor|]. cbn [map]. constructor; [apply undash_single|exact IH]. }
    apply M.
  - intro a. unfold count_eq. induction a as [|c a IH]; [reflexivity|]. cbn [existsb filter]. destruct (Ascii.eqb c_eq c); [reflexivity|exact IH].
Qed.
(** an argument with more than one equals sign, or one that starts with it, changes nothing at all *)
Theorem C122_dropped :
  forall prog pre s post, (2 <= count_eq s)%nat \/ (exists v, s = c_eq :: v) ->
  run_app (prog :: pre ++ s :: post) = run_app (prog :: pre ++ post).
Proof.
  intros prog pre s post C.
  assert (A : forall acc, snd (add_arg acc s) = snd acc).
  { intros [a k]. unfold ArgModel.add_arg. destruct (Nat.eqb_spec (count_eq s) 1); [|reflexivity].
    destruct C as [C|(v & C)]; [lia|]. rewrite C. cbn [split_eq]. rewrite Ascii.eqb_refl. reflexivity. }
  assert (F : forall l a b, snd a = snd b -> snd (fold_left add_arg l a) = snd (fold_left add_arg l b)).
  { induction l as [|u l IH]; intros a b E; [exact E|]. cbn [fold_left]. apply IH. destruct a as [a1 a2], b as [b1 b2]. cbn [snd] in E. subst b2.
    unfold ArgModel.add_arg. destruct (if Nat.eqb (count_eq u) 1 then _ else _) as [[[|c k]|] v]; reflexivity. }
  unfold ArgModel.run_app, info_from_argv. cbn [tl].
  assert (E : snd (fold_left add_arg (pre ++ s :: post) ([], [])) = snd (fold_left add_arg (pre ++ post) ([], []))).
  { rewrite !fold_left_app. cbn [fold_left]. apply F, A. }
  rewrite E. f_equal. destruct (get_bool _ _ _ _); [|reflexivity]. do 2 f_equal. rewrite !filter_app. cbn [filter].
  destruct (Nat.eqb_spec (count_eq s) 0) as [K|K]; [|reflexivity].
  destruct C as [C|(v & C)]; [lia|]. rewrite C, count_cons in K. discriminate K.
Qed.
End Arguments.
Print Assumptions C121_keywords.
Print Assumptions C122_passed_on_partial.
Print Assumptions C122_petsc.
Print Assumptions C121_plotting.
Print Assumptions C122_dropped.

(** ** A concrete command line *)
Definition js (t : text) : option (value Z) := option_map (VJson Z) (parse_nat t).
Example C121_example :
  l_app Z (run_app Z js (fun j => negb (Z.eqb j 0)) [lit "acoustics.py"; lit "mx=100"; lit "--log_view"; lit "solver_type=sharpclaw"; lit "iplot=1"; lit "mx=200"; lit "use_petsc=True"])
  = [(lit "mx", VJson Z 200%Z); (lit "solver_type", VStr Z (lit "sharpclaw")); (lit "use_petsc", VBool Z true)] /\
  l_petsc Z (run_app Z js (fun j => negb (Z.eqb j 0)) [lit "acoustics.py"; lit "mx=100"; lit "--log_view"; lit "solver_type=sharpclaw"; lit "iplot=1"; lit "mx=200"; lit "use_petsc=True"])
  = Some [lit "-log_view"].
Proof. split; vm_compute; reflexivity. Qed.

(** C122 is false: the output directory run_dt=01 is silently ignored. *)
Theorem C122_passed_on_refuted :
  exists s, s = lit "outdir=run_dt=01" /\
  l_app Z (run_app Z js (fun j => negb (Z.eqb j 0)) [lit "acoustics.py"; s; lit "use_petsc=True"]) = [(lit "use_petsc", VBool Z true)] /\
  l_petsc Z (run_app Z js (fun j => negb (Z.eqb j 0)) [lit "acoustics.py"; s; lit "use_petsc=True"]) = Some [] /\
  l_outdir Z (run_app Z js (fun j => negb (Z.eqb j 0)) [lit "acoustics.py"; s; lit "use_petsc=True"]) = None.
Proof. eexists. split; [reflexivity|]. vm_compute. repeat split. Qed.
Print Assumptions C122_passed_on_refuted.
