From Verif Require Import Base SolnModel SolnSpec.

Lemma set_all_spec k v : forall l l', set_all k v l = Some l' ->
  Forall2 (fun a b => set_state k v a = Some b) l l'.
Proof.
  induction l as [|a l IH]; intros l' E; cbn [set_all] in E.
  - injection E as <-. constructor.
  - destruct (set_state k v a) as [a'|] eqn:Ea; [|discriminate E].
    destruct (set_all k v l) as [r|] eqn:Er; [|discriminate E]. injection E as <-.
    constructor; [exact Ea|]. apply IH. reflexivity.
Qed.
Lemma set_state_get k v a b : set_state k v a = Some b -> (forall x, v = VNum x -> k = KMp \/ k = KMF -> exists n, x = inject_Z n) ->
  get_state k b = v /\ same_but k a b.
Proof.
  intros E HV. unfold same_but. destruct k; cbn in E.
  - destruct v; try discriminate E. injection E as <-. cbn. split; [reflexivity|].
    repeat split; intros; congruence.
  - destruct (p a); try discriminate E. destruct v; try discriminate E. injection E as <-. cbn.
    destruct (HV x eq_refl) as (n & ->); [tauto|]. cbn. split; [reflexivity|]. repeat split; intros; congruence.
  - destruct (F a); try discriminate E. destruct v; try discriminate E. injection E as <-. cbn.
    destruct (HV x eq_refl) as (n & ->); [tauto|]. cbn. split; [reflexivity|]. repeat split; intros; congruence.
  - injection E as <-. cbn. split; [reflexivity|]. repeat split; intros; congruence.
  - injection E as <-. cbn. split; [reflexivity|]. repeat split; intros; congruence.
  - injection E as <-. cbn. split; [reflexivity|]. repeat split; intros; congruence.
  - injection E as <-. cbn. split; [reflexivity|]. repeat split; intros; congruence.
  - injection E as <-. cbn. split; [reflexivity|]. repeat split; intros; congruence.
Qed.
Lemma set_all_time x : forall l, set_all KT (VNum x) l =
  Some (map (fun s => mkState x (q s) (aux s) (p s) (F s) (data s)) l).
Proof. induction l as [|a l IH]; cbn [set_all set_state map]; [reflexivity|]. rewrite IH. reflexivity. Qed.

Lemma evolve_form advance tend st r o : evolve advance tend (mkSolution (st :: r) o) =
  Some (mkSolution (map (fun s => mkState (snd (advance st tend)) (q s) (aux s) (p s) (F s) (data s))
                        (mkState (t st) (fst (advance st tend)) (aux st) (p st) (F st) (data st) :: r)) o).
Proof.
  unfold evolve. cbn [states own]. destruct (advance st tend) as [q' t']. unfold set. cbn [states own].
  rewrite set_all_time. reflexivity.
Qed.

Lemma careful_own advance os : forall s s', Forall careful os -> exec_all advance os s = Some s' -> own s' = own s.
Proof.
  induction os as [|o os IH]; intros s s' HC E; cbn [exec_all] in E; [congruence|].
  apply Forall_cons_iff in HC. destruct HC as (HC & HCs).
  destruct (exec advance o s) as [s1|] eqn:E1; [|discriminate E]. rewrite (IH s1 s' HCs E). clear IH E.
  destruct o as [k v|i k v|tend]; cbn [exec] in E1.
  - cbn in HC. destruct HC as [K|[K|K]]; subst k; cbn [set] in E1;
      (destruct (set_all _ v (states s)) as [l|]; [|discriminate E1]); injection E1 as <-; reflexivity.
  - destruct (nth_error (states s) i) as [st|]; [|discriminate E1].
    destruct (set_state k v st) as [st'|]; [|discriminate E1]. injection E1 as <-. reflexivity.
  - destruct s as [[|st r] o]; [discriminate E1|]. rewrite evolve_form in E1. injection E1 as <-. reflexivity.
Qed.
