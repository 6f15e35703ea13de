(** Property C49: options of solvers. *)
From Coq Require Import String.
From Verif Require Import Base OptionModel OptionSpec.
Open Scope string_scope.

Section P.
Variable V : Type.
Variable of_bool : bool -> V.
Variable truthy : V -> bool.
Hypothesis Htrue : truthy (of_bool true) = true.
Hypothesis Hfalse : truthy (of_bool false) = false.
Variable class_names : list string.
Variable fill : V -> V -> V.
Hypothesis Hclass : ~ In "_isinitialized" class_names.
Notation setattr := (setattr of_bool truthy class_names fill).
Notation assignments := (assignments of_bool truthy class_names fill).
Notation has := (has class_names).

Lemma get_put k v d k' : get k' (put k v d) = if String.eqb k' k then Some v else @get V k' d.
Proof.
  induction d as [|[a b] d IH]; cbn [put get].
  - destruct (String.eqb_spec k' k); reflexivity.
  - destruct (String.eqb_spec k a) as [E|E]; cbn [get].
    + subst a. destruct (String.eqb_spec k' k); reflexivity.
    + destruct (String.eqb_spec k' a) as [E'|E']; [|exact IH]. subst a.
      destruct (String.eqb_spec k' k) as [E''|E'']; [congruence|reflexivity].
Qed.

(** An initialised solver. *)
Definition initialised (d : dict V) : Prop :=
  exists x, get "_isinitialized" d = Some x /\ truthy x = true.

Lemma setattr_init k v d : initialised d -> setattr k v d = if has k d then object_setattr fill k v d else (d, Some TypeError).
Proof.
  intros (x & Hx & Ht). unfold setattr, OptionModel.setattr.
  assert (Hh : has "_isinitialized" d = true) by (unfold OptionModel.has; rewrite Hx; reflexivity).
  rewrite Hh, Hx, Ht. cbn [andb]. destruct (has k d); reflexivity.
Qed.

(** Assigning an attribute the solver does not have raises TypeError and changes nothing; assigning an
    attribute it has (in the object) stores the value and changes nothing else.  Setting all_bcs changes the
    two lists of boundary conditions only. *)
Theorem C49_assignment (d : dict V) (k : string) (v : V) : initialised d ->
  (has k d = false -> setattr k v d = (d, Some TypeError)) /\
  (has k d = true -> k <> "all_bcs" ->
     snd (setattr k v d) = None /\ get k (fst (setattr k v d)) = Some v /\
     forall k', k' <> k -> get k' (fst (setattr k v d)) = get k' d) /\
  (forall lo hi, k = "all_bcs" -> get "bc_lower" d = Some lo -> get "bc_upper" d = Some hi ->
     snd (setattr k v d) = None /\ get "bc_lower" (fst (setattr k v d)) = Some (fill lo v) /\
     get "bc_upper" (fst (setattr k v d)) = Some (fill hi v) /\
     forall k', k' <> "bc_lower" -> k' <> "bc_upper" -> get k' (fst (setattr k v d)) = get k' d).
Proof.
  intros HI. rewrite (setattr_init k v d HI). split; [|split].
  - intros ->. reflexivity.
  - intros -> Hk. unfold object_setattr. destruct (String.eqb_spec k "all_bcs") as [E|_]; [contradiction|].
    cbn [fst snd]. split; [reflexivity|]. split; [rewrite get_put, String.eqb_refl; reflexivity|].
    intros k' Hne. rewrite get_put. destruct (String.eqb_spec k' k); [contradiction|reflexivity].
  - intros lo hi -> Hlo Hhi. assert (Hh : has "all_bcs" d = true).
    { unfold OptionModel.has. destruct (get "all_bcs" d); reflexivity. }
    rewrite Hh. unfold object_setattr. rewrite String.eqb_refl, Hlo, Hhi. cbn [fst snd]. split; [reflexivity|].
    split; [rewrite !get_put; reflexivity|]. split; [rewrite !get_put; reflexivity|].
    intros k' H1 H2. rewrite !get_put. destruct (String.eqb_spec k' "bc_upper"); [contradiction|].
    destruct (String.eqb_spec k' "bc_lower"); [contradiction|reflexivity].
Qed.

(** Any history of assignments, with exceptions caught, none of them to all_bcs or to the initialisation flag:
    each attribute the solver had (and no class attribute shadows) holds the last value assigned to it, no
    attribute appears that it did not have, and exactly the assignments to missing attributes raised. *)
Theorem C49_history (l : list (string * V)) : forall (d : dict V), initialised d ->
  Forall (fun kv => fst kv <> "all_bcs" /\ fst kv <> "_isinitialized") l ->
  let d' := fst (assignments l d) in
  initialised d' /\
  (forall k, has k d' = has k d) /\
  (forall k, get k d' = if has k d then last_value k l (get k d) else None) /\
  snd (assignments l d) = map (fun kv => if has (fst kv) d then None else Some TypeError) l.
Proof.
  induction l as [|[k v] l IH]; intros d HI HF; cbv zeta; cbn [OptionModel.assignments].
  - cbn [fst snd last_value map]. split; [exact HI|]. split; [reflexivity|]. split; [|reflexivity].
    intros k. unfold OptionModel.has. destruct (get k d); [reflexivity|]. destruct (_ || _)%bool; reflexivity.
  - apply Forall_cons_iff in HF. destruct HF as [[H1 H2] HF]. cbn [fst] in H1, H2.
    destruct (setattr k v d) as [d1 e] eqn:E. rewrite (setattr_init k v d HI) in E.
    destruct (has k d) eqn:Hk.
    + unfold object_setattr in E. destruct (String.eqb_spec k "all_bcs") as [X|_]; [contradiction|]. injection E as <- <-.
      assert (HI1 : initialised (put k v d)).
      { destruct HI as (x & Hx & Ht). exists x. split; [|exact Ht]. rewrite get_put.
        destruct (String.eqb_spec "_isinitialized" k) as [X|_]; [congruence|exact Hx]. }
      assert (HH : forall k', has k' (put k v d) = has k' d).
      { intros k'. unfold OptionModel.has in Hk |- *. rewrite get_put. destruct (String.eqb_spec k' k) as [X|_]; [|reflexivity].
        subst k'. symmetry. exact Hk. }
      destruct (IH (put k v d) HI1 HF) as (A & B & C & D). destruct (assignments l (put k v d)) as [d2 es]. cbn [fst snd] in A, B, C, D |- *.
      split; [exact A|]. split; [intros k'; rewrite B; apply HH|]. split.
      * intros k'. rewrite C, HH. destruct (has k' d) eqn:Hk'; [|reflexivity]. cbn [last_value]. rewrite get_put.
        destruct (String.eqb_spec k' k); reflexivity.
      * cbn [map fst]. rewrite Hk, D. f_equal. apply map_ext. intros kv. rewrite HH. reflexivity.
    + injection E as <- <-. destruct (IH d HI HF) as (A & B & C & D). destruct (assignments l d) as [d2 es]. cbn [fst snd] in A, B, C, D |- *.
      split; [exact A|]. split; [exact B|]. split.
      * intros k'. rewrite C. destruct (has k' d) eqn:Hk'; [|reflexivity]. cbn [last_value].
        destruct (String.eqb_spec k' k) as [X|_]; [congruence|reflexivity].
      * cbn [map fst]. rewrite Hk, D. reflexivity.
Qed.

(** The constructors succeed, the new solver is initialised and has exactly the attributes its constructors
    assign; all assignments the methods of the library make later are to existing attributes. *)
Theorem C49_constructed_solvers (v : string -> V) (c : solver_class) :
  let '(d, es) := construct of_bool truthy class_names fill v c in
  initialised d /\ Forall (fun e => e = None) es /\
  (forall k, get k d <> None <-> In k ("_isinitialized" :: constructor c)) /\
  (forall k, In k (later c) -> get k d <> None).
Proof.
  assert (K : forall l d, (exists x, get "_isinitialized" d = Some x /\ truthy x = false) \/ d = [] ->
     Forall (fun k => k <> "all_bcs" /\ k <> "_isinitialized") l -> (l <> [] \/ d <> []) ->
     let r := assignments (map (fun k => (k, v k)) l ++ [("_isinitialized", of_bool true)]) d in
     initialised (fst r) /\ Forall (fun e => e = None) (snd r) /\
     (forall k, get k (fst r) <> None <-> In k ("_isinitialized" :: l) \/ get k d <> None)).
  { assert (STEP : forall k w d, (exists x, get "_isinitialized" d = Some x /\ truthy x = false) -> k <> "all_bcs" ->
        setattr k w d = (put k w d, None)).
    { intros k w d (x & Hx & Ht) Hk. unfold OptionModel.setattr.
      assert (Hh : has "_isinitialized" d = true) by (unfold OptionModel.has; rewrite Hx; reflexivity).
      rewrite Hh, Hx, Ht. cbn [andb]. unfold object_setattr. destruct (String.eqb_spec k "all_bcs"); [contradiction|reflexivity]. }
    assert (START : forall k w, k <> "all_bcs" -> k <> "_isinitialized" ->
        setattr k w [] = (put k w [("_isinitialized", of_bool false)], None)).
    { intros k w Hk _. unfold OptionModel.setattr.
      assert (Hh : has "_isinitialized" (@nil (string * V)) = false).
      { unfold OptionModel.has. cbn [get]. apply not_true_is_false. intros X. apply orb_prop in X. destruct X as [X|X]; [discriminate X|].
        apply existsb_exists in X. destruct X as (y & Hy & Ey). apply String.eqb_eq in Ey. subst y. contradiction. }
      rewrite Hh. cbn [put get String.eqb Ascii.eqb Bool.eqb]. rewrite Hfalse. cbn [andb]. unfold object_setattr.
      destruct (String.eqb_spec k "all_bcs"); [contradiction|reflexivity]. }
    induction l as [|k l IH]; intros d Hd HF Hne; cbv zeta.
    - cbn [map app OptionModel.assignments]. destruct Hd as [Hd| ->]; [|destruct Hne; congruence].
      rewrite STEP by (exact Hd || discriminate). cbn [fst snd]. split; [|split].
      + exists (of_bool true). split; [rewrite get_put; reflexivity|exact Htrue].
      + constructor; [reflexivity|constructor].
      + intros k. rewrite get_put. destruct (String.eqb_spec k "_isinitialized") as [E|E].
        * split; [intros _; left; left; symmetry; exact E|discriminate].
        * split; [intros H; right; exact H|]. intros [[H|[]]|H]; [congruence|exact H].
    - apply Forall_cons_iff in HF. destruct HF as [[H1 H2] HF]. cbn [map app OptionModel.assignments].
      assert (S1 : exists d1, setattr k (v k) d = (d1, None) /\ (exists x, get "_isinitialized" d1 = Some x /\ truthy x = false) /\
         forall k', get k' d1 <> None <-> k' = k \/ k' = "_isinitialized" \/ get k' d <> None).
      { destruct Hd as [Hd| ->].
        - exists (put k (v k) d). split; [apply STEP; [exact Hd|exact H1]|]. destruct Hd as (x & Hx & Ht). split.
          + exists x. split; [|exact Ht]. rewrite get_put. destruct (String.eqb_spec "_isinitialized" k); [congruence|exact Hx].
          + intros k'. rewrite get_put. destruct (String.eqb_spec k' k) as [E|E].
            * split; [intros _; left; exact E|discriminate].
            * split; [intros H; right; right; exact H|]. intros [H|[H|H]]; [contradiction| |exact H]. subst k'. rewrite Hx. discriminate.
        - exists (put k (v k) [("_isinitialized", of_bool false)]). split; [apply START; assumption|]. split.
          + exists (of_bool false). split; [|exact Hfalse]. rewrite get_put. destruct (String.eqb_spec "_isinitialized" k); [congruence|reflexivity].
          + intros k'. rewrite get_put. cbn [get]. destruct (String.eqb_spec k' k) as [E|E].
            * split; [intros _; left; exact E|discriminate].
            * destruct (String.eqb_spec k' "_isinitialized") as [E'|E'].
              -- split; [intros _; right; left; exact E'|discriminate].
              -- split; [congruence|]. intros [H|[H|H]]; congruence. }
      destruct S1 as (d1 & S1 & S2 & S3). rewrite S1.
      assert (Hne1 : l <> [] \/ d1 <> []).
      { right. destruct S2 as (x & Hx & _). intros ->. discriminate Hx. }
      destruct (IH d1 (or_introl S2) HF Hne1) as (A & B & C).
      destruct (OptionModel.assignments of_bool truthy class_names fill (map (fun k0 => (k0, v k0)) l ++ [("_isinitialized", of_bool true)]) d1) as [d2 es]. cbn [fst snd] in A, B, C |- *.
      split; [exact A|]. split; [constructor; [reflexivity|exact B]|]. intros k'. rewrite C, S3. cbn [In]. intuition congruence. }
  assert (CON : Forall (fun k => k <> "all_bcs" /\ k <> "_isinitialized") (constructor c)).
  { apply Forall_forall. intros k Hk.
    assert (X : forallb (fun k => negb (String.eqb k "all_bcs") && negb (String.eqb k "_isinitialized"))%bool (constructor c) = true) by (destruct c; reflexivity).
    rewrite forallb_forall in X. specialize (X k Hk). apply andb_prop in X. destruct X as [X Y].
    apply negb_true_iff in X, Y. apply String.eqb_neq in X, Y. split; assumption. }
  assert (NE : constructor c <> []) by (destruct c; discriminate).
  destruct (K (constructor c) [] (or_intror eq_refl) CON (or_introl NE)) as (A & B & C).
  unfold construct. destruct (OptionModel.assignments _ _ _ _ _ []) as [d es]. cbn [fst snd] in A, B, C.
  split; [exact A|]. split; [exact B|]. assert (C' : forall k, get k d <> None <-> In k ("_isinitialized" :: constructor c)).
  { intros k. rewrite C. cbn [get]. split; [intros [H|H]; [exact H|congruence]|intros H; left; exact H]. }
  split; [exact C'|]. intros k Hk. apply C'. right.
  assert (X : forallb (fun k => existsb (String.eqb k) (constructor c)) (later c) = true) by (destruct c; reflexivity).
  rewrite forallb_forall in X. specialize (X k Hk). apply existsb_exists in X. destruct X as (y & Hy & Ey).
  apply String.eqb_eq in Ey. subst y. exact Hy.
Qed.
End P.

Example C49_case :
  let d := fst (construct (fun b : bool => b) (fun b => b) ["step"; "setup"] (fun _ v => v) (fun _ => true) Classic1D) in
  initialised bool (fun b => b) d /\ has ["step"; "setup"] "cfl_desired" d = true /\ has ["step"; "setup"] "cfl_desried" d = false.
Proof. cbv zeta. split; [exists true; split; vm_compute; reflexivity|split; vm_compute; reflexivity]. Qed.

Print Assumptions C49_assignment.
Print Assumptions C49_history.
Print Assumptions C49_constructed_solvers.
