(** Proofs about the values that reach the kernels. *)
From Verif Require Import Base SettingsModel SettingsSpec.

Lemma mthlim_each_wave o l : set_mthlim o = Some l -> l = each_wave o.
Proof.
  unfold set_mthlim, each_wave. destruct (limiters o) as [|x [|y r]]; intro H; cbv zeta in H; cbn [length Nat.eqb] in H.
  - match type of H with (if ?b then _ else _) = _ => destruct b end; congruence.
  - match type of H with (if ?b then _ else _) = _ => destruct b end; [|discriminate]. injection H as <-. generalize (num_waves o). intro n.
    induction n as [|n IH]; cbn; [reflexivity|]. f_equal. exact IH.
  - match type of H with (if ?b then _ else _) = _ => destruct b end; congruence.
Qed.

Lemma upd_at {A} (f : nat -> A) i v j : upd f i v j = if Nat.eqb j i then v else f j.
Proof. reflexivity. Qed.

Section Proofs.
  Variable solvers : nat -> built.
  Variable names : nat -> list Z.
  Variable opts0 : nat -> options.
  Variable states0 : nat -> pstate.
  Notation exec := (exec solvers names).
  Notation exec_all := (exec_all solvers names).
  Notation co := (current_options opts0).
  Notation cs := (current_state states0).
  Notation ls := (last_setup solvers states0).

  Lemma exec_all_snoc os a : forall w, exec_all (os ++ [a]) w = match exec_all os w with Some w' => exec a w' | None => None end.
  Proof.
    induction os as [|b os IH]; intro w; cbn [app SettingsModel.exec_all].
    - destruct (exec a w); reflexivity.
    - destruct (exec b w); [apply IH|reflexivity].
  Qed.
  Lemma co_snoc os a s : co (os ++ [a]) s = match a with SetOptions t o => if Nat.eqb t s then o else co os s | _ => co os s end.
  Proof. unfold current_options. rewrite fold_left_app. reflexivity. Qed.
  Lemma cs_snoc os a i : cs (os ++ [a]) i = match a with SetState j st => if Nat.eqb j i then st else cs os i | _ => cs os i end.
  Proof. unfold current_state. rewrite fold_left_app. reflexivity. Qed.
  Lemma first_snoc s a os : forall b, first_step s b (os ++ [a]) =
    match first_step s b os with
    | Some r => Some r
    | None => match a with Step t i => if Nat.eqb t s then Some (b ++ os, i) else None | _ => None end
    end.
  Proof.
    induction os as [|c os IH]; intro b; cbn [app first_step].
    - rewrite app_nil_r. destruct a as [t o|t st|t i]; try reflexivity; destruct (Nat.eqb t s); reflexivity.
    - destruct c as [t o|t st|t i]; try (destruct (Nat.eqb t s); [reflexivity|]); rewrite IH, <- app_assoc; reflexivity.
  Qed.
  Lemma last_snoc mo a os : forall b f, ls mo b (os ++ [a]) f =
    match a with
    | Step t i =>
        match first_step t [] (b ++ os), lang (solvers t) with
        | None, Fortran => if Nat.eqb (module (solvers t)) mo then Some (cs (b ++ os) i) else ls mo b os f
        | _, _ => ls mo b os f
        end
    | _ => ls mo b os f
    end.
  Proof.
    induction os as [|c os IH]; intros b f.
    - cbn [app last_setup]. rewrite app_nil_r. reflexivity.
    - cbn [app last_setup]. rewrite IH, <- app_assoc. reflexivity.
  Qed.

  Definition relates (os : list op) (w : session) : Prop :=
    (forall s, s_opts w s = co os s) /\ (forall i, s_states w i = cs os i) /\
    (forall s, s_fixed w s = match first_step s [] os with
                             | None => None
                             | Some (pre, j) => Some (set_method (solvers s) (co pre s) (cs pre j) (each_wave (co pre s)))
                             end) /\
    (forall mo k, In k (names mo) -> s_cparam w mo k = match ls mo [] os None with
                                                      | None => None
                                                      | Some st => problem_data st k
                                                      end).

  Lemma setup_relates os w s i w' : relates os w -> s_fixed w s = None -> setup solvers names s i w = Some w' ->
    relates (os ++ [Step s i]) w' /\ s_calls w' = s_calls w.
  Proof.
    intros (HO & HS & HF & HC) N. unfold setup.
    assert (Fn : first_step s [] os = None).
    { specialize (HF s). rewrite N in HF. destruct (first_step s [] os) as [[pre j]|]; [discriminate HF|reflexivity]. }
    destruct (set_mthlim (s_opts w s)) as [l|] eqn:El; [|discriminate]. apply mthlim_each_wave in El.
    assert (Fix : forall t, upd (s_fixed w) s (Some (set_method (solvers s) (s_opts w s) (s_states w i) l)) t =
              match first_step t [] (os ++ [Step s i]) with
              | None => None
              | Some (pre, j) => Some (set_method (solvers t) (co pre t) (cs pre j) (each_wave (co pre t)))
              end).
    { intro t. rewrite upd_at, first_snoc, HF. cbn [app]. rewrite (Nat.eqb_sym s t). destruct (Nat.eqb_spec t s) as [E|E].
      - subst t. rewrite Fn, El, HO, HS. reflexivity.
      - destruct (first_step t [] os) as [[pre j]|]; reflexivity. }
    destruct (lang (solvers s)) eqn:Elang.
    - destruct (set_cparam names (module (solvers s)) (s_states w i) (s_cparam w)) as [c|] eqn:Ec; [|discriminate].
      intro K. injection K as <-. split; [|reflexivity]. split; [|split; [|split]]; cbn [s_opts s_states s_fixed s_cparam].
      + intro t. rewrite co_snoc. apply HO.
      + intro t. rewrite cs_snoc. apply HS.
      + exact Fix.
      + intros mo k Hk. unfold set_cparam in Ec. destruct (forallb _ _) eqn:Ef; [|discriminate Ec]. injection Ec as <-.
        rewrite last_snoc. cbn [app]. rewrite Fn, Elang, upd_at, (Nat.eqb_sym (module (solvers s)) mo).
        destruct (Nat.eqb_spec mo (module (solvers s))) as [E|E].
        * subst mo. rewrite forallb_forall in Ef. specialize (Ef k Hk). rewrite <- HS.
          destruct (problem_data (s_states w i) k); [reflexivity|discriminate Ef].
        * apply HC. exact Hk.
    - destruct (Nat.ltb 1 (dims (solvers s))); [discriminate|].
      intro K. injection K as <-. split; [|reflexivity]. split; [|split; [|split]]; cbn [s_opts s_states s_fixed s_cparam].
      + intro t. rewrite co_snoc. apply HO.
      + intro t. rewrite cs_snoc. apply HS.
      + exact Fix.
      + intros mo k Hk. rewrite last_snoc. cbn [app]. rewrite Fn, Elang. apply HC. exact Hk.
  Qed.

  Lemma step_relates os w s i w' : relates os w -> exec (Step s i) w = Some w' ->
    relates (os ++ [Step s i]) w' /\
    exists x, s_fixed w' s = Some x /\
      s_calls w' = s_calls w ++ [(s, i, kernel_call names (solvers s) (s_opts w' s) x (s_states w' i) (s_cparam w'))].
  Proof.
    intros R. cbn [SettingsModel.exec].
    destruct (s_fixed w s) as [x0|] eqn:Ex.
    - rewrite Ex. intro K. injection K as <-. destruct R as (HO & HS & HF & HC).
      assert (Fn : exists r, first_step s [] os = Some r).
      { specialize (HF s). rewrite Ex in HF. destruct (first_step s [] os) as [r|]; [exists r; reflexivity|discriminate HF]. }
      destruct Fn as (r & Fn).
      split.
      + split; [|split; [|split]]; cbn [s_opts s_states s_fixed s_cparam].
        * intro t. rewrite co_snoc. apply HO.
        * intro t. rewrite cs_snoc. apply HS.
        * intro t. rewrite first_snoc, HF. destruct (first_step t [] os) as [r'|] eqn:Et; [reflexivity|].
          destruct (Nat.eqb_spec s t) as [E|E]; [subst t; congruence|reflexivity].
        * intros mo k Hk. rewrite last_snoc. cbn [app]. rewrite Fn. apply HC. exact Hk.
      + exists x0. split; [exact Ex|reflexivity].
    - destruct (setup solvers names s i w) as [w1|] eqn:E1; [|discriminate].
      destruct (setup_relates os w s i w1 R Ex E1) as (R1 & C1).
      destruct (s_fixed w1 s) as [x|] eqn:Ex1; [|discriminate]. intro K. injection K as <-. split; [exact R1|].
      exists x. cbn [s_fixed s_calls s_opts s_states s_cparam]. split; [exact Ex1|]. rewrite C1. reflexivity.
  Qed.

  Lemma run_relates os : forall w, exec_all os (start opts0 states0) = Some w -> relates os w.
  Proof.
    induction os as [|a os IH] using rev_ind; intros w E.
    - injection E as <-. split; [|split; [|split]]; intros; reflexivity.
    - rewrite exec_all_snoc in E. destruct (exec_all os (start opts0 states0)) as [w0|]; [|discriminate E].
      specialize (IH w0 eq_refl). destruct a as [t o|t st|t i].
      + injection E as <-. destruct IH as (HO & HS & HF & HC).
        split; [|split; [|split]]; cbn [s_opts s_states s_fixed s_cparam].
        * intro s. rewrite co_snoc, upd_at, HO, (Nat.eqb_sym s t). reflexivity.
        * intro i. rewrite cs_snoc. apply HS.
        * intro s. rewrite first_snoc, HF. destruct (first_step s [] os) as [[pre j]|]; reflexivity.
        * intros mo k Hk. rewrite last_snoc. apply HC. exact Hk.
      + injection E as <-. destruct IH as (HO & HS & HF & HC).
        split; [|split; [|split]]; cbn [s_opts s_states s_fixed s_cparam].
        * intro s. rewrite co_snoc. apply HO.
        * intro i. rewrite cs_snoc, upd_at, HS, (Nat.eqb_sym i t). reflexivity.
        * intro s. rewrite first_snoc, HF. destruct (first_step s [] os) as [[pre j]|]; reflexivity.
        * intros mo k Hk. rewrite last_snoc. apply HC. exact Hk.
      + exact (proj1 (step_relates os w0 t i w IH E)).
  Qed.

  Lemma mthlim_length o l : set_mthlim o = Some l -> length (each_wave o) = num_waves o.
  Proof.
    intro H. pose proof (mthlim_each_wave o l H) as E. unfold set_mthlim in H. cbv zeta in H.
    match type of H with (if Nat.eqb ?a ?b then _ else _) = _ => destruct (Nat.eqb_spec a b) as [K|K]; [|discriminate H] end.
    injection H as H. rewrite H in K. rewrite <- E. exact K.
  Qed.
  (** A first step only succeeds with a fitting number of limiters *)
  Lemma run_limiters os : forall w, exec_all os (start opts0 states0) = Some w ->
    forall s pre j, first_step s [] os = Some (pre, j) -> length (each_wave (co pre s)) = num_waves (co pre s).
  Proof.
    induction os as [|a os IH] using rev_ind; intros w E s pre j F.
    - discriminate F.
    - rewrite exec_all_snoc in E. destruct (exec_all os (start opts0 states0)) as [w0|] eqn:E0; [|discriminate E].
      rewrite first_snoc in F. destruct (first_step s [] os) as [[pre' j']|] eqn:F0.
      + injection F as <- <-. exact (IH w0 eq_refl s pre' j' F0).
      + destruct a as [t o|t st|t i]; try discriminate F. destruct (Nat.eqb_spec t s) as [->|Ne]; [|discriminate F].
        cbn [app] in F. injection F as <- <-. destruct (run_relates _ _ E0) as (HO & _ & HF & _).
        specialize (HF s). rewrite F0 in HF. cbn [SettingsModel.exec] in E. rewrite HF in E.
        destruct (setup solvers names s i w0) as [w1|] eqn:E1; [|discriminate E].
        unfold setup in E1. cbv zeta in E1. destruct (set_mthlim (s_opts w0 s)) as [l|] eqn:El; [|discriminate E1].
        rewrite <- HO. exact (mthlim_length _ _ El).
  Qed.

  Lemma last_call os s i w : exec_all (os ++ [Step s i]) (start opts0 states0) = Some w ->
    exists calls pre j, s_calls w = calls ++ [(s, i,
      let b := solvers s in
      let o := co os s in let st := cs os i in
      let o0 := co pre s in let st0 := cs pre j in
      match lang b with
      | Fortran =>
          mkCall (k_split (asked names b o st)) (k_order (asked names b o0 st0)) (k_code (asked names b o0 st0))
            (k_capa (asked names b o0 st0)) (k_naux (asked names b o0 st0)) (k_limiters (asked names b o0 st0)) (fwave o)
            (match ls (module b) [] (os ++ [Step s i]) None with
             | Some st' => map (problem_data st') (names (module b))
             | None => map (fun _ => None) (names (module b))
             end)
      | Python =>
          mkCall false (order o) 0 (index_capa st + 1) (num_aux st) (k_limiters (asked names b o0 st0)) (fwave o)
            (map (problem_data st) (names (module b)))
      end)] /\ first_step s [] (os ++ [Step s i]) = Some (pre, j).
  Proof.
    intro E. pose proof (run_relates _ _ E) as (HO & HS & HF & HC). rewrite exec_all_snoc in E.
    destruct (exec_all os (start opts0 states0)) as [w0|] eqn:E0; [|discriminate E].
    destruct (step_relates os w0 s i w (run_relates _ _ E0) E) as (_ & x & Ex & Ec).
    pose proof (HF s) as K. rewrite Ex in K.
    destruct (first_step s [] (os ++ [Step s i])) as [[pre j]|]; [|discriminate K]. injection K as K.
    exists (s_calls w0), pre, j. split; [|reflexivity]. rewrite Ec. f_equal. f_equal. f_equal.
    cbv zeta. unfold kernel_call, asked. pose proof (HO s) as Ho. rewrite co_snoc in Ho. pose proof (HS i) as Hs.
    rewrite cs_snoc in Hs. rewrite Ho, Hs, K.
    destruct (lang (solvers s)) eqn:El; cbn [k_split k_order k_code k_capa k_naux k_limiters set_method x_order x_code x_capa x_naux x_limiters];
      [|reflexivity].
    f_equal. destruct (ls (module (solvers s)) [] (os ++ [Step s i]) None) as [st'|] eqn:E'.
    - apply map_ext_in. intros k Hk. rewrite (HC _ k Hk), E'. reflexivity.
    - apply map_ext_in. intros k Hk. rewrite (HC _ k Hk), E'. reflexivity.
  Qed.

  Lemma first_step_prefix s os : forall b r j, first_step s b os = Some (r, j) ->
    exists mid post, r = b ++ mid /\ os = mid ++ Step s j :: post.
  Proof.
    induction os as [|a os IH]; intros b r j H; [discriminate H|]. cbn [first_step] in H.
    destruct a as [t o|t st|t i].
    - destruct (IH _ _ _ H) as (mid & post & E1 & E2). exists (SetOptions t o :: mid), post.
      rewrite E1, E2, <- app_assoc. split; reflexivity.
    - destruct (IH _ _ _ H) as (mid & post & E1 & E2). exists (SetState t st :: mid), post.
      rewrite E1, E2, <- app_assoc. split; reflexivity.
    - destruct (Nat.eqb_spec t s) as [E|E].
      + injection H as <- <-. subst t. exists [], os. rewrite app_nil_r. split; reflexivity.
      + destruct (IH _ _ _ H) as (mid & post & E1 & E2). exists (Step t i :: mid), post.
        rewrite E1, E2, <- app_assoc. split; reflexivity.
  Qed.
End Proofs.

Section Last.
  Variable solvers : nat -> built.
  Variable states0 : nat -> pstate.
  Lemma last_setup_step mo os : forall b f st, last_setup solvers states0 mo b os f = Some st ->
    f = Some st \/ exists p t j q, os = p ++ Step t j :: q /\ lang (solvers t) = Fortran /\ module (solvers t) = mo /\
                   st = current_state states0 (b ++ p) j.
  Proof.
    induction os as [|a os IH]; intros b f st H; [left; exact H|]. cbn [last_setup] in H.
    destruct (IH _ _ _ H) as [E|(p & t & j & q & E1 & E2 & E3 & E4)].
    - destruct a as [t o|t s|t i]; [left; exact E|left; exact E|].
      destruct (first_step t [] b); [left; exact E|].
      destruct (lang (solvers t)) eqn:El; [|left; exact E].
      destruct (Nat.eqb_spec (module (solvers t)) mo) as [Em|Em]; [|left; exact E].
      right. exists [], t, i, os. injection E as <-. rewrite app_nil_r. repeat split; assumption.
    - right. exists (a :: p), t, j, q. rewrite E1. split; [reflexivity|]. split; [exact E2|]. split; [exact E3|].
      rewrite E4, <- app_assoc. reflexivity.
  Qed.

  (** After a step of a Fortran solver its module has been set up *)
  Lemma last_setup_some mo os : forall b f, (f <> None \/ exists p t j q, os = p ++ Step t j :: q /\
      lang (solvers t) = Fortran /\ module (solvers t) = mo /\ first_step t [] (b ++ p) = None) ->
    last_setup solvers states0 mo b os f <> None.
  Proof.
    induction os as [|a os IH]; intros b f H.
    - destruct H as [H|(p & t & j & q & E & _)]; [exact H|destruct p; discriminate E].
    - cbn [last_setup]. apply IH.
      destruct H as [H|(p & t & j & q & E & E2 & E3 & E4)].
      + left. destruct a as [t o|t s|t i]; try exact H. destruct (first_step t [] b); [exact H|].
        destruct (lang (solvers t)); [|exact H]. destruct (Nat.eqb _ _); [discriminate|exact H].
      + destruct p as [|a' p].
        * injection E as -> ->. rewrite app_nil_r in E4. left. rewrite E4, E2, E3, Nat.eqb_refl. discriminate.
        * injection E as -> ->. right. exists p, t, j, q. rewrite <- app_assoc. repeat split; assumption.
  Qed.
  Lemma first_step_none_before s os : forall b r j, first_step s b os = Some (b ++ r, j) ->
    forall b', first_step s b' r = None.
  Proof.
    induction os as [|a os IH]; intros b r j H b'; [discriminate H|]. cbn [first_step] in H.
    assert (Kr : forall H' : first_step s (b ++ [a]) os = Some (b ++ r, j),
              (match a with Step t _ => Nat.eqb t s = false | _ => True end) -> first_step s b' r = None).
    { intros H' Hn. destruct (first_step_prefix s os _ _ _ H') as (mid & post & E1 & E2).
      rewrite <- app_assoc in E1. apply app_inv_head in E1. subst r. cbn [app first_step].
      assert (K : forall b2, first_step s b2 mid = None).
      { apply (IH (b ++ [a]) mid j). rewrite H', <- app_assoc. reflexivity. }
      destruct a as [t o|t st|t i]; [apply K|apply K|]. rewrite Hn. apply K. }
    destruct a as [t o|t st|t i]; [exact (Kr H I)|exact (Kr H I)|].
    destruct (Nat.eqb t s) eqn:E; [|exact (Kr H eq_refl)].
    injection H as H _. rewrite <- (app_nil_r b) in H at 1. apply app_inv_head in H. subst r. reflexivity.
  Qed.
  Lemma stepped_module_set_up os s i : lang (solvers s) = Fortran ->
    last_setup solvers states0 (module (solvers s)) [] (os ++ [Step s i]) None <> None.
  Proof.
    intro El. apply last_setup_some. right.
    assert (K : exists r j, first_step s [] (os ++ [Step s i]) = Some (r, j)).
    { rewrite first_snoc. destruct (first_step s [] os) as [[r j]|]; [exists r, j; reflexivity|].
      rewrite Nat.eqb_refl. eexists. eexists. reflexivity. }
    destruct K as (r & j & K). destruct (first_step_prefix _ _ _ _ _ K) as (mid & post & E1 & E2). cbn [app] in E1. subst r.
    exists mid, s, j, post. repeat split; try assumption. cbn [app]. exact (first_step_none_before s _ [] mid j K []).
  Qed.
End Last.
