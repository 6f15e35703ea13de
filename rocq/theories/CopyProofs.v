(** Proofs about copies. *)
From Verif Require Import Base CopyModel CopySpec.

Lemma fld_eqb_spec a b : Bool.reflect (a = b) (fld_eqb a b).
Proof. destruct a, b; constructor; congruence. Qed.

Lemma replace_length g h : forall a, length (replace_at a g h) = length h.
Proof. induction h as [|o h IH]; intros [|a]; cbn [replace_at length]; [reflexivity..|]. rewrite IH. reflexivity. Qed.
Lemma nth_replace g h : forall a b, nth_error (replace_at a g h) b = if Nat.eqb a b then option_map g (nth_error h b) else nth_error h b.
Proof.
  induction h as [|o h IH]; intros a b.
  - replace (replace_at a g []) with (@nil obj) by (destruct a; reflexivity). destruct b; destruct (Nat.eqb _ _); reflexivity.
  - destruct a as [|a], b as [|b]; cbn [replace_at nth_error Nat.eqb]; try reflexivity. apply IH.
Qed.
Lemma nth_set {A} (l : list A) : forall i x j, (i < length l)%nat ->
  nth_error (firstn i l ++ x :: skipn (S i) l) j = if Nat.eqb i j then Some x else nth_error l j.
Proof.
  induction l as [|y l IH]; intros i x j Hi; [cbn [length] in Hi; lia|]. destruct i as [|i].
  - destruct j; reflexivity.
  - cbn [length] in Hi. destruct j as [|j]; [reflexivity|]. cbn [firstn app nth_error Nat.eqb skipn].
    apply (IH i x j). lia.
Qed.
Lemma set_length {A} (l : list A) i x : (i < length l)%nat -> length (firstn i l ++ x :: skipn (S i) l) = length l.
Proof. intros H. rewrite app_length. cbn [length]. rewrite firstn_length, skipn_length. lia. Qed.

Lemma same_refl v : same_values v v.
Proof. repeat split. Qed.
Lemma same_trans a b c : same_values a b -> same_values b c -> same_values a c.
Proof.
  intros (A1 & A2 & A3 & A4) (B1 & B2 & B3 & B4). split; [intros f; rewrite A1; apply B1|].
  split; [congruence|]. split; congruence.
Qed.
Lemma same_sym a b : same_values a b -> same_values b a.
Proof. intros (A1 & A2 & A3 & A4). split; [intros f; symmetry; apply A1|]. split; [congruence|]. split; congruence. Qed.
Lemma change_same c a b : same_values a b -> same_values (change_values c a) (change_values c b).
Proof.
  intros (A1 & A2 & A3 & A4). destruct c; cbn [change_values]; (split; [|split; [|split]]); cbn [v_obj v_t v_capa v_keep]; auto.
  - intros f'. destruct (fld_eqb f f'); [rewrite A1; reflexivity|apply A1].
  - intros f'. destruct (fld_eqb f f'); [reflexivity|apply A1].
Qed.
Lemma copied_same a b : same_values a b -> same_values (copied a) (copied b).
Proof.
  intros (A1 & A2 & A3 & A4). split; [|split; [exact A2|split; reflexivity]]. intros f. cbn [copied v_obj].
  destruct f; rewrite ?A1; reflexivity.
Qed.

Lemma change_ok h ss i s c h' s' : separate h ss -> nth_error ss i = Some s -> apply_change c h s = (h', s') ->
  separate h' (set_nth_state i s' ss) /\ same_values (values_of h' s') (change_values c (values_of h s)) /\
  (forall j sj, j <> i -> nth_error ss j = Some sj -> same_values (values_of h' sj) (values_of h sj)) /\
  (length h <= length h')%nat.
Proof.
  intros [S1 S2] Hi Hc. assert (Li : (i < length ss)%nat) by (apply nth_error_Some; congruence).
  assert (NT : forall h0 s0, (forall f, s_ref s0 f = s_ref s f) -> h0 = h ->
     separate h0 (set_nth_state i s0 ss)).
  { intros h0 s0 Hr ->. unfold set_nth_state. split.
    - intros j sj f a Hj Ha. rewrite nth_set in Hj by exact Li. destruct (Nat.eqb_spec i j) as [E|E].
      + injection Hj as <-. rewrite Hr in Ha. exact (S1 _ _ _ _ Hi Ha).
      + exact (S1 _ _ _ _ Hj Ha).
    - intros j k sj sk f f' a Hj Hk Hf Hf'. rewrite nth_set in Hj, Hk by exact Li.
      destruct (Nat.eqb_spec i j) as [E|E]; destruct (Nat.eqb_spec i k) as [E'|E'].
      + injection Hj as <-. injection Hk as <-. rewrite Hr in Hf, Hf'. destruct (S2 _ _ _ _ _ _ _ Hi Hi Hf Hf') as [_ F]. split; [lia|exact F].
      + injection Hj as <-. rewrite Hr in Hf. subst j. exact (S2 _ _ _ _ _ _ _ Hi Hk Hf Hf').
      + injection Hk as <-. rewrite Hr in Hf'. subst k. exact (S2 _ _ _ _ _ _ _ Hj Hi Hf Hf').
      + exact (S2 _ _ _ _ _ _ _ Hj Hk Hf Hf'). }
  destruct c as [f g|f [o|]|t|k|b]; cbn [apply_change] in Hc.
  - destruct (s_ref s f) as [a|] eqn:Ea; injection Hc as <- <-.
    + split; [|split; [|split]].
      * destruct (NT h s (fun _ => eq_refl) eq_refl) as [T1 T2]. split; [|exact T2].
        intros j sj f0 a0 Hj Ha. rewrite replace_length. exact (T1 _ _ _ _ Hj Ha).
      * split; [|repeat split]. intros f'. cbn [values_of change_values v_obj]. destruct (fld_eqb_spec f f') as [E|E].
        -- subst f'. rewrite Ea. rewrite nth_replace, Nat.eqb_refl. reflexivity.
        -- destruct (s_ref s f') as [a'|] eqn:Ea'; [|reflexivity]. rewrite nth_replace.
           destruct (Nat.eqb_spec a a') as [E'|E']; [|reflexivity]. subst a'. exfalso. apply E.
           exact (proj2 (S2 _ _ _ _ _ _ _ Hi Hi Ea Ea')).
      * intros j sj Hne Hj. split; [|repeat split]. intros f'. cbn [values_of v_obj].
        destruct (s_ref sj f') as [a'|] eqn:Ea'; [|reflexivity]. rewrite nth_replace.
        destruct (Nat.eqb_spec a a') as [E'|E']; [|reflexivity]. subst a'. exfalso. apply Hne.
        exact (proj1 (S2 _ _ _ _ _ _ _ Hj Hi Ea' Ea)).
      * rewrite replace_length. lia.
    + split; [exact (NT h s (fun _ => eq_refl) eq_refl)|]. split; [|split; [intros; apply same_refl|lia]].
      split; [|repeat split]. intros f'. cbn [values_of change_values v_obj]. destruct (fld_eqb_spec f f') as [E|E]; [subst f'; rewrite Ea; reflexivity|reflexivity].
  - injection Hc as <- <-. assert (OLD : forall a, (a < length h)%nat -> nth_error (h ++ [o]) a = nth_error h a).
    { intros a Ha. apply nth_error_app1. exact Ha. }
    split; [|split; [|split]].
    + unfold set_nth_state. split.
      * intros j sj f0 a Hj Ha. rewrite app_length. cbn [length]. rewrite nth_set in Hj by exact Li.
        destruct (Nat.eqb_spec i j) as [E|E].
        -- injection Hj as <-. cbn [s_ref set_ref] in Ha. destruct (fld_eqb f f0); [injection Ha as <-; lia|].
           pose proof (S1 _ _ _ _ Hi Ha). lia.
        -- pose proof (S1 _ _ _ _ Hj Ha). lia.
      * intros j k sj sk f1 f2 a Hj Hk Hf Hf'. rewrite nth_set in Hj, Hk by exact Li.
        destruct (Nat.eqb_spec i j) as [E|E]; destruct (Nat.eqb_spec i k) as [E'|E'].
        -- injection Hj as <-. injection Hk as <-. cbn [s_ref set_ref] in Hf, Hf'. split; [lia|].
           destruct (fld_eqb_spec f f1) as [D|D]; destruct (fld_eqb_spec f f2) as [D'|D'].
           ++ congruence.
           ++ injection Hf as <-. pose proof (S1 _ _ _ _ Hi Hf'). lia.
           ++ injection Hf' as <-. pose proof (S1 _ _ _ _ Hi Hf). lia.
           ++ exact (proj2 (S2 _ _ _ _ _ _ _ Hi Hi Hf Hf')).
        -- injection Hj as <-. cbn [s_ref set_ref] in Hf. destruct (fld_eqb f f1).
           ++ injection Hf as <-. pose proof (S1 _ _ _ _ Hk Hf'). lia.
           ++ subst j. exact (S2 _ _ _ _ _ _ _ Hi Hk Hf Hf').
        -- injection Hk as <-. cbn [s_ref set_ref] in Hf'. destruct (fld_eqb f f2).
           ++ injection Hf' as <-. pose proof (S1 _ _ _ _ Hj Hf). lia.
           ++ subst k. exact (S2 _ _ _ _ _ _ _ Hj Hi Hf Hf').
        -- exact (S2 _ _ _ _ _ _ _ Hj Hk Hf Hf').
    + split; [|repeat split]. intros f'. cbn [values_of change_values v_obj s_ref set_ref].
      destruct (fld_eqb f f').
      * rewrite nth_error_app2, Nat.sub_diag by lia. reflexivity.
      * destruct (s_ref s f') as [a|] eqn:Ea; [|reflexivity]. apply OLD. exact (S1 _ _ _ _ Hi Ea).
    + intros j sj Hne Hj. split; [|repeat split]. intros f'. cbn [values_of v_obj].
      destruct (s_ref sj f') as [a|] eqn:Ea; [|reflexivity]. apply OLD. exact (S1 _ _ _ _ Hj Ea).
    + rewrite app_length. lia.
  - injection Hc as <- <-. split; [|split; [|split; [intros; apply same_refl|lia]]].
    + unfold set_nth_state. split.
      * intros j sj f0 a Hj Ha. rewrite nth_set in Hj by exact Li. destruct (Nat.eqb_spec i j) as [E|E].
        -- injection Hj as <-. cbn [s_ref set_ref] in Ha. destruct (fld_eqb f f0); [discriminate|]. exact (S1 _ _ _ _ Hi Ha).
        -- exact (S1 _ _ _ _ Hj Ha).
      * intros j k sj sk f1 f2 a Hj Hk Hf Hf'. rewrite nth_set in Hj, Hk by exact Li.
        destruct (Nat.eqb_spec i j) as [E|E]; destruct (Nat.eqb_spec i k) as [E'|E'].
        -- injection Hj as <-. injection Hk as <-. cbn [s_ref set_ref] in Hf, Hf'. split; [lia|].
           destruct (fld_eqb f f1); [discriminate|]. destruct (fld_eqb f f2); [discriminate|].
           exact (proj2 (S2 _ _ _ _ _ _ _ Hi Hi Hf Hf')).
        -- injection Hj as <-. cbn [s_ref set_ref] in Hf. destruct (fld_eqb f f1); [discriminate|].
           subst j. exact (S2 _ _ _ _ _ _ _ Hi Hk Hf Hf').
        -- injection Hk as <-. cbn [s_ref set_ref] in Hf'. destruct (fld_eqb f f2); [discriminate|].
           subst k. exact (S2 _ _ _ _ _ _ _ Hj Hi Hf Hf').
        -- exact (S2 _ _ _ _ _ _ _ Hj Hk Hf Hf').
    + split; [|repeat split]. intros f'. cbn [values_of change_values v_obj s_ref set_ref]. destruct (fld_eqb f f'); reflexivity.
  - injection Hc as <- <-. split; [apply NT; reflexivity|]. split; [repeat split|]. split; [intros; apply same_refl|lia].
  - injection Hc as <- <-. split; [apply NT; reflexivity|]. split; [repeat split|]. split; [intros; apply same_refl|lia].
  - injection Hc as <- <-. split; [apply NT; reflexivity|]. split; [repeat split|]. split; [intros; apply same_refl|lia].
Qed.

Lemma set_last {A} (l : list A) x y : firstn (length l) (l ++ [x]) ++ y :: skipn (S (length l)) (l ++ [x]) = l ++ [y].
Proof.
  rewrite firstn_app, firstn_all, Nat.sub_diag. cbn [firstn]. rewrite app_nil_r.
  rewrite skipn_all2 by (rewrite app_length; cbn [length]; lia). reflexivity.
Qed.

(** One attribute of the copy. *)
Lemma copy_field_ok f src h ss s h' s' i : separate h (ss ++ [s]) -> nth_error ss i = Some src ->
  copy_field f src h s = (h', s') ->
  separate h' (ss ++ [s']) /\
  (forall f', v_obj (values_of h' s') f' =
     if fld_eqb f f' then match v_obj (values_of h src) f with Some o => Some (copy_obj o) | None => v_obj (values_of h s) f' end
     else v_obj (values_of h s) f') /\
  (s_t s' = s_t s /\ s_capa s' = s_capa s /\ s_keep s' = s_keep s) /\
  (forall j sj, nth_error ss j = Some sj -> same_values (values_of h' sj) (values_of h sj)).
Proof.
  intros HS Hi Hc. unfold copy_field in Hc.
  assert (CASE : (exists o, v_obj (values_of h src) f = Some o /\ apply_change (Assign f (Some (copy_obj o))) h s = (h', s')) \/
                 (v_obj (values_of h src) f = None /\ h' = h /\ s' = s)).
  { cbn [values_of v_obj]. destruct (s_ref src f) as [a|]; [|right; injection Hc as <- <-; repeat split; reflexivity].
    destruct (nth_error h a) as [o|]; [|right; injection Hc as <- <-; repeat split; reflexivity].
    left. exists o. split; [reflexivity|exact Hc]. }
  destruct CASE as [(o & Ho & Ha)|(Hn & -> & ->)].
  - assert (HL : nth_error (ss ++ [s]) (length ss) = Some s) by (rewrite nth_error_app2, Nat.sub_diag by lia; reflexivity).
    destruct (change_ok _ _ _ _ _ _ _ HS HL Ha) as (A & B & C & _).
    unfold set_nth_state in A. rewrite set_last in A. split; [exact A|]. destruct B as (B1 & B2 & B3 & B4).
    split; [|split].
    + intros f'. rewrite B1. cbn [change_values v_obj]. rewrite Ho. destruct (fld_eqb f f'); reflexivity.
    + cbn [change_values values_of v_t v_capa v_keep] in B2, B3, B4. auto.
    + intros j sj Hj. assert (j < length ss)%nat by (apply nth_error_Some; congruence). apply C with (j := j); [lia|].
      rewrite nth_error_app1 by lia. exact Hj.
  - split; [exact HS|]. split; [|split; [repeat split|intros; apply same_refl]].
    intros f'. rewrite Hn. destruct (fld_eqb f f'); reflexivity.
Qed.

Lemma same_obj a b f : same_values a b -> v_obj a f = v_obj b f.
Proof. intros H. apply H. Qed.

Lemma copy_ok h ss i src h' s' : separate h ss -> nth_error ss i = Some src -> deepcopy_state h src = (h', s') ->
  separate h' (ss ++ [s']) /\ same_values (values_of h' s') (copied (values_of h src)) /\
  (forall j sj, nth_error ss j = Some sj -> same_values (values_of h' sj) (values_of h sj)).
Proof.
  intros HS Hi Hc. unfold deepcopy_state in Hc. set (s0 := mkState (fun _ => None) (s_t src) (-1) false) in Hc.
  assert (HS0 : separate h (ss ++ [s0])).
  { destruct HS as [S1 S2]. split.
    - intros j sj f a Hj Ha. destruct (Nat.lt_ge_cases j (length ss)) as [L|L].
      + rewrite nth_error_app1 in Hj by exact L. exact (S1 _ _ _ _ Hj Ha).
      + rewrite nth_error_app2 in Hj by exact L. destruct (j - length ss)%nat as [|[|?]]; try discriminate Hj. injection Hj as <-. discriminate Ha.
    - intros j k sj sk f f' a Hj Hk Hf Hf'. destruct (Nat.lt_ge_cases j (length ss)) as [L|L].
      + rewrite nth_error_app1 in Hj by exact L. destruct (Nat.lt_ge_cases k (length ss)) as [L'|L'].
        * rewrite nth_error_app1 in Hk by exact L'. exact (S2 _ _ _ _ _ _ _ Hj Hk Hf Hf').
        * rewrite nth_error_app2 in Hk by exact L'. destruct (k - length ss)%nat as [|[|?]]; try discriminate Hk. injection Hk as <-. discriminate Hf'.
      + rewrite nth_error_app2 in Hj by exact L. destruct (j - length ss)%nat as [|[|?]]; try discriminate Hj. injection Hj as <-. discriminate Hf. }
  destruct (copy_field Fpatch src h s0) as [h1 s1] eqn:E1.
  destruct (copy_field Fq src h1 s1) as [h2 s2] eqn:E2.
  destruct (copy_field Faux src h2 s2) as [h3 s3] eqn:E3.
  destruct (copy_field_ok _ _ _ _ _ _ _ _ HS0 Hi E1) as (A1 & B1 & C1 & D1).
  destruct (copy_field_ok _ _ _ _ _ _ _ _ A1 Hi E2) as (A2 & B2 & C2 & D2).
  destruct (copy_field_ok _ _ _ _ _ _ _ _ A2 Hi E3) as (A3 & B3 & C3 & D3).
  destruct (copy_field_ok _ _ _ _ _ _ _ _ A3 Hi Hc) as (A4 & B4 & C4 & D4).
  split; [exact A4|]. split.
  - split; [|split; [|split]].
    + assert (O1 := same_obj _ _ Fq (D1 _ _ Hi)). assert (O2 := same_obj _ _ Faux (same_trans _ _ _ (D2 _ _ Hi) (D1 _ _ Hi))).
      assert (O3 := same_obj _ _ Fdata (same_trans _ _ _ (D3 _ _ Hi) (same_trans _ _ _ (D2 _ _ Hi) (D1 _ _ Hi)))).
      assert (Z0 : forall f, v_obj (values_of h s0) f = None) by reflexivity.
      intros f. rewrite B4, B3, B2, B1, O1, O2, O3. rewrite !Z0. unfold copied. cbn [v_obj].
      change without_gauges with copy_obj. destruct f; cbn [fld_eqb]; try reflexivity;
        match goal with |- match ?x with _ => _ end = _ => destruct x; reflexivity end.
    + cbn [values_of v_t copied]. transitivity (s_t s0); [|reflexivity].
      destruct C1 as (D & _), C2 as (E & _), C3 as (F & _), C4 as (G & _). congruence.
    + cbn [values_of v_capa copied]. destruct C1 as (_ & E1' & _), C2 as (_ & E2' & _), C3 as (_ & E3' & _), C4 as (_ & E4' & _).
      rewrite E4', E3', E2', E1'. reflexivity.
    + cbn [values_of v_keep copied]. destruct C1 as (_ & _ & E1'), C2 as (_ & _ & E2'), C3 as (_ & _ & E3'), C4 as (_ & _ & E4').
      rewrite E4', E3', E2', E1'. reflexivity.
  - intros j sj Hj. exact (same_trans _ _ _ (D4 _ _ Hj) (same_trans _ _ _ (D3 _ _ Hj) (same_trans _ _ _ (D2 _ _ Hj) (D1 _ _ Hj)))).
Qed.

(** The program refines the program on values. *)
Definition agree (h : store) (ss : list state) (vs : list values) : Prop :=
  length vs = length ss /\ forall i s v, nth_error ss i = Some s -> nth_error vs i = Some v -> same_values (values_of h s) v.

Lemma step_ok o h ss vs h' ss' : separate h ss -> agree h ss vs -> step o (h, ss) = (h', ss') ->
  separate h' ss' /\ agree h' ss' (value_step o vs).
Proof.
  intros HS [HL HA] Ho. destruct o as [i c|i]; unfold step in Ho; unfold value_step.
  - destruct (nth_error ss i) as [s|] eqn:Ei.
    + assert (Li : (i < length ss)%nat) by (apply nth_error_Some; congruence).
      destruct (nth_error vs i) as [v|] eqn:Ev; [|apply nth_error_None in Ev; lia].
      destruct (apply_change c h s) as [h1 s1] eqn:Ec. injection Ho as <- <-.
      destruct (change_ok _ _ _ _ _ _ _ HS Ei Ec) as (A & B & C & _). split; [exact A|].
      unfold set_nth_state. split; [rewrite !set_length by lia; exact HL|].
      intros j sj vj Hj Hv. rewrite nth_set in Hj by lia. rewrite nth_set in Hv by lia. destruct (Nat.eqb_spec i j) as [E|E].
      * injection Hj as <-. injection Hv as <-. apply (same_trans _ _ _ B). apply change_same. exact (HA _ _ _ Ei Ev).
      * apply (same_trans _ _ _ (C j sj (fun X => E (eq_sym X)) Hj)). exact (HA _ _ _ Hj Hv).
    + assert (Ev : nth_error vs i = None) by (apply nth_error_None; apply nth_error_None in Ei; lia).
      rewrite Ev. injection Ho as <- <-. split; [exact HS|]. split; [exact HL|exact HA].
  - destruct (nth_error ss i) as [s|] eqn:Ei.
    + assert (Li : (i < length ss)%nat) by (apply nth_error_Some; congruence).
      destruct (nth_error vs i) as [v|] eqn:Ev; [|apply nth_error_None in Ev; lia].
      destruct (deepcopy_state h s) as [h1 s1] eqn:Ec. injection Ho as <- <-.
      destruct (copy_ok _ _ _ _ _ _ HS Ei Ec) as (A & B & C). split; [exact A|].
      split; [rewrite !app_length, HL; reflexivity|].
      intros j sj vj Hj Hv. destruct (Nat.lt_ge_cases j (length ss)) as [L|L].
      * rewrite nth_error_app1 in Hj by lia. rewrite nth_error_app1 in Hv by lia. apply (same_trans _ _ _ (C _ _ Hj)). exact (HA _ _ _ Hj Hv).
      * rewrite nth_error_app2 in Hj by lia. rewrite nth_error_app2 in Hv by lia. rewrite HL in Hv. destruct (j - length ss)%nat as [|[|?]]; try discriminate Hj.
        injection Hj as <-. injection Hv as <-. apply (same_trans _ _ _ B). apply copied_same. exact (HA _ _ _ Ei Ev).
    + assert (Ev : nth_error vs i = None) by (apply nth_error_None; apply nth_error_None in Ei; lia).
      rewrite Ev. injection Ho as <- <-. split; [exact HS|]. split; [exact HL|exact HA].
Qed.
Lemma exec_ok ops : forall h ss vs h' ss', separate h ss -> agree h ss vs -> exec ops (h, ss) = (h', ss') ->
  separate h' ss' /\ agree h' ss' (value_exec ops vs).
Proof.
  induction ops as [|o ops IH]; intros h ss vs h' ss' HS HA HE; unfold exec, value_exec in *; cbn [fold_left] in *.
  - injection HE as <- <-. split; assumption.
  - destruct (step o (h, ss)) as [h1 ss1] eqn:Eo. destruct (step_ok _ _ _ _ _ _ HS HA Eo) as [A B].
    exact (IH _ _ _ _ _ A B HE).
Qed.
