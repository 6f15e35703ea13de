(** Proofs about ghost cells in parallel runs. *)
From Verif Require Import Base BCModel BCSpec BCProofs GeometrySpec Classic1DModel ParallelModel ParallelSpec.
Local Open Scope Z_scope.

Ltac bsimp := rewrite ?andb_false_r, ?andb_false_l, ?andb_true_r, ?andb_true_l, ?orb_false_r, ?orb_false_l.

Section P.
Variable V : Type.
Variable opp : V -> V.
Notation arr := (arr V).
Variable ng : nat.
Notation g := (Z.of_nat ng).

Definition is_periodic (ty : bctype) : bool := match ty with Periodic => true | _ => false end.
Definition is_wall (ty : bctype) : bool := match ty with Wall => true | _ => false end.

(** One array at one side *)
Definition do_lo (ty : bctype) (onlo onhi : bool) d l isq refl neq (a : arr) : outcome arr :=
  if onlo then (if (is_periodic ty && negb onhi)%bool then Ok a else bc_lower V opp ng ty d (l + 2 * g) isq refl neq a) else Ok a.
Definition do_hi (ty : bctype) (onlo onhi : bool) d l isq refl neq (a : arr) : outcome arr :=
  if onhi then (if (is_periodic ty && negb onlo)%bool then Ok a else bc_upper V opp ng ty d (l + 2 * g) isq refl neq a) else Ok a.

Definition src_lo (ty : bctype) (onlo onhi : bool) (l i : Z) : Z :=
  if (Z.ltb i 0 && onlo)%bool then
    match ty with Periodic => if onhi then i + l else i | Wall => -1 - i | _ => 0 end
  else i.
Definition src_hi (ty : bctype) (onlo onhi : bool) (l i : Z) : Z :=
  if (Z.leb l i && onhi)%bool then
    match ty with Periodic => if onlo then i - l else i | Wall => 2 * l - 1 - i | _ => l - 1 end
  else i.
Definition flip (b : bool) : V -> V := if b then opp else fun v => v.

Lemma do_lo_at ty onlo onhi d l isq refl neq (a : arr) :
  standard ty -> (1 <= ng)%nat -> g <= l -> (ty = Wall -> isq = true -> 0 <= refl < neq) ->
  exists a', do_lo ty onlo onhi d l isq refl neq a = Ok a' /\
  forall pre c i rest, length pre = d -> - g <= i < l + g ->
  a' c (pre ++ (i + g) :: rest) =
  flip (isq && Z.eqb c refl && (Z.ltb i 0 && onlo && is_wall ty)) (a c (pre ++ (src_lo ty onlo onhi l i + g) :: rest)).
Proof.
  intros Hs Hg Hl Hr. unfold do_lo, src_lo. destruct onlo.
  2:{ exists a. split; [reflexivity|]. intros. repeat (progress bsimp). reflexivity. }
  destruct (is_periodic ty && negb onhi)%bool eqn:Ep.
  - apply andb_true_iff in Ep. destruct Ep as [Ep Eh]. destruct ty; try discriminate. destruct onhi; [discriminate|].
    exists a. split; [reflexivity|]. intros. cbn [is_wall]. repeat (progress bsimp). cbn [flip]. match goal with |- context [if ?b then _ else _] => destruct b end; reflexivity.
  - destruct (bc_lower_at V opp ng ty d (l + 2 * g) isq refl neq a Hs Hg ltac:(lia) Hr ltac:(right; lia)) as (a' & E & A).
    exists a'. split; [exact E|]. intros pre c i rest Hd Hi. rewrite A by (assumption || lia).
    destruct (Z.ltb_spec i 0).
    + replace (Z.ltb (i + g) g) with true by lia. unfold sgn, flip.
      destruct Hs as [Es|[Es|Es]]; subst ty; cbn [is_wall is_periodic negb] in *; repeat (progress bsimp).
      * do 3 f_equal.
      * destruct onhi; [|discriminate]. do 3 f_equal. lia.
      * replace (2 * g - 1 - (i + g)) with (-1 - i + g) by lia. destruct (isq && (c =? refl))%bool; reflexivity.
    + replace (Z.ltb (i + g) g) with false by lia. repeat (progress bsimp). reflexivity.
Qed.
Lemma do_hi_at ty onlo onhi d l isq refl neq (a : arr) :
  standard ty -> (1 <= ng)%nat -> g <= l -> (ty = Wall -> isq = true -> 0 <= refl < neq) ->
  exists a', do_hi ty onlo onhi d l isq refl neq a = Ok a' /\
  forall pre c i rest, length pre = d -> - g <= i < l + g ->
  a' c (pre ++ (i + g) :: rest) =
  flip (isq && Z.eqb c refl && (Z.leb l i && onhi && is_wall ty)) (a c (pre ++ (src_hi ty onlo onhi l i + g) :: rest)).
Proof.
  intros Hs Hg Hl Hr. unfold do_hi, src_hi. destruct onhi.
  2:{ exists a. split; [reflexivity|]. intros. repeat (progress bsimp). reflexivity. }
  destruct (is_periodic ty && negb onlo)%bool eqn:Ep.
  - apply andb_true_iff in Ep. destruct Ep as [Ep Eh]. destruct ty; try discriminate. destruct onlo; [discriminate|].
    exists a. split; [reflexivity|]. intros. cbn [is_wall]. repeat (progress bsimp). cbn [flip]. match goal with |- context [if ?b then _ else _] => destruct b end; reflexivity.
  - destruct (bc_upper_at V opp ng ty d (l + 2 * g) isq refl neq a Hs Hg ltac:(lia) Hr ltac:(right; lia)) as (a' & E & A).
    exists a'. split; [exact E|]. intros pre c i rest Hd Hi. rewrite A by (assumption || lia).
    destruct (Z.leb_spec l i).
    + replace (Z.leb (l + 2 * g - g) (i + g)) with true by lia. unfold sgn, flip.
      destruct Hs as [Es|[Es|Es]]; subst ty; cbn [is_wall is_periodic negb] in *; repeat (progress bsimp).
      * do 3 f_equal. lia.
      * destruct onlo; [|discriminate]. do 3 f_equal. lia.
      * replace (2 * (l + 2 * g - g) - 1 - (i + g)) with (2 * l - 1 - i + g) by lia. destruct (isq && (c =? refl))%bool; reflexivity.
    + replace (Z.leb (l + 2 * g - g) (i + g)) with false by lia. repeat (progress bsimp). reflexivity.
Qed.

(** The position, in cells of the periodically continued global grid, whose value a ghost cell takes *)
Definition src_at (lo hi : bctype) (n : Z) (b : Z * Z) (i : Z) : Z :=
  let onlo := Z.eqb (fst b) 0 in let onhi := Z.eqb (snd b) n in let l := snd b - fst b in
  if Z.ltb i 0 then src_lo lo onlo onhi l i else src_hi hi onlo onhi l i.

Definition box_ok (n : Z) (b : Z * Z) : Prop :=
  (0 <= fst b /\ fst b < snd b /\ g <= snd b - fst b /\ snd b <= n) /\
  (fst b = 0 \/ g <= fst b) /\ (snd b = n \/ snd b + g <= n).

Lemma wrap_small n i : 0 <= i < n -> wrap n i = i.
Proof. intros H. unfold wrap. apply Z.mod_small. exact H. Qed.
Lemma wrap_up n i : - n <= i < 0 -> wrap n i = i + n.
Proof. intros H. unfold wrap. rewrite <- (Z.mod_add i 1 n) by lia. replace (i + 1 * n) with (i + n) by lia. apply Z.mod_small. lia. Qed.
Lemma wrap_down n i : n <= i < 2 * n -> wrap n i = i - n.
Proof. intros H. unfold wrap. rewrite <- (Z.mod_add i (-1) n) by lia. replace (i + -1 * n) with (i - n) by lia. apply Z.mod_small. lia. Qed.

Lemma src_global lo hi n b i : standard lo -> standard hi -> (1 <= ng)%nat -> box_ok n b -> - g <= i < snd b - fst b + g ->
  wrap n (fst b + src_at lo hi n b i) = source_cell lo hi n (fst b + i).
Proof.
  intros Hlo Hhi Hg ((H1 & H2 & H3 & H4) & H5 & H6) Hi. unfold src_at, src_lo, src_hi, source_cell.
  destruct (Z.ltb_spec i 0); cbn [andb].
  - destruct (Z.eqb_spec (fst b) 0) as [E|E]; cbn [andb].
    + replace (Z.ltb (fst b + i) 0) with true by lia. destruct Hlo as [Es|[Es|Es]]; subst lo.
      * rewrite wrap_small; lia.
      * destruct (Z.eqb_spec (snd b) n).
        -- rewrite wrap_small; lia.
        -- rewrite wrap_up; lia.
      * rewrite wrap_small; lia.
    + replace (Z.ltb (fst b + i) 0) with false by lia. replace (Z.leb n (fst b + i)) with false by lia. apply wrap_small. lia.
  - replace (Z.ltb (fst b + i) 0) with false by lia. destruct (Z.leb_spec (snd b - fst b) i); cbn [andb].
    + destruct (Z.eqb_spec (snd b) n) as [E|E].
      * replace (Z.leb n (fst b + i)) with true by lia. destruct Hhi as [Es|[Es|Es]]; subst hi.
        -- rewrite wrap_small; lia.
        -- destruct (Z.eqb_spec (fst b) 0).
           ++ rewrite wrap_small; lia.
           ++ rewrite wrap_down; lia.
        -- rewrite wrap_small; lia.
      * replace (Z.leb n (fst b + i)) with false by lia. apply wrap_small. lia.
    + replace (Z.leb n (fst b + i)) with false by lia. apply wrap_small. lia.
Qed.

Lemma both_at isq lo hi d n b refl neq (a : arr) :
  standard lo -> standard hi -> (1 <= ng)%nat -> box_ok n b -> (lo = Wall \/ hi = Wall -> isq = true -> 0 <= refl < neq) ->
  exists a1 a2,
  do_lo lo (Z.eqb (fst b) 0) (Z.eqb (snd b) n) d (snd b - fst b) isq refl neq a = Ok a1 /\
  do_hi hi (Z.eqb (fst b) 0) (Z.eqb (snd b) n) d (snd b - fst b) isq refl neq a1 = Ok a2 /\
  forall pre c i rest, length pre = d -> - g <= i < snd b - fst b + g ->
    a2 c (pre ++ (i + g) :: rest) =
    flip (isq && Z.eqb c refl && behind_wall lo hi n (fst b + i)) (a c (pre ++ (src_at lo hi n b i + g) :: rest)).
Proof.
  intros Hlo Hhi Hg HB Hr. destruct HB as ((H1 & H2 & H3 & H4) & H5 & H6).
  destruct (do_lo_at lo (Z.eqb (fst b) 0) (Z.eqb (snd b) n) d (snd b - fst b) isq refl neq a Hlo Hg H3 (fun E => Hr (or_introl E))) as (a1 & E1 & A1).
  destruct (do_hi_at hi (Z.eqb (fst b) 0) (Z.eqb (snd b) n) d (snd b - fst b) isq refl neq a1 Hhi Hg H3 (fun E => Hr (or_intror E))) as (a2 & E2 & A2).
  exists a1, a2. split; [exact E1|]. split; [exact E2|].
  intros pre c i rest Hd Hi. rewrite A2 by assumption. unfold src_at, behind_wall.
  fold (is_wall lo) (is_wall hi).
  destruct (Z.ltb_spec i 0).
  - replace (Z.leb (snd b - fst b) i) with false by lia. cbn [andb orb]. rewrite andb_false_r. cbn [flip].
    unfold src_hi. replace (Z.leb (snd b - fst b) i) with false by lia. cbn [andb].
    rewrite A1 by assumption. replace (Z.ltb i 0) with true by lia. cbn [andb].
    destruct (Z.eqb_spec (fst b) 0) as [E|E].
    + replace (Z.ltb (fst b + i) 0) with true by lia. replace (Z.leb n (fst b + i)) with false by lia. cbn [andb orb]. rewrite orb_false_r. reflexivity.
    + replace (Z.ltb (fst b + i) 0) with false by lia. replace (Z.leb n (fst b + i)) with false by lia. reflexivity.
  - assert (Hs : 0 <= src_hi hi (Z.eqb (fst b) 0) (Z.eqb (snd b) n) (snd b - fst b) i < snd b - fst b + g).
    { unfold src_hi. destruct (Z.leb_spec (snd b - fst b) i); cbn [andb]; [|lia].
      destruct (snd b =? n); [|lia]. destruct hi; try lia. destruct (fst b =? 0); lia. }
    rewrite A1 by (assumption || lia).
    replace (Z.ltb (src_hi hi (Z.eqb (fst b) 0) (Z.eqb (snd b) n) (snd b - fst b) i) 0) with false by lia. cbn [andb]. rewrite andb_false_r. cbn [flip].
    replace (src_lo lo (Z.eqb (fst b) 0) (Z.eqb (snd b) n) (snd b - fst b) (src_hi hi (Z.eqb (fst b) 0) (Z.eqb (snd b) n) (snd b - fst b) i))
      with (src_hi hi (Z.eqb (fst b) 0) (Z.eqb (snd b) n) (snd b - fst b) i)
      by (unfold src_lo at 1; replace (Z.ltb (src_hi hi (Z.eqb (fst b) 0) (Z.eqb (snd b) n) (snd b - fst b) i) 0) with false by lia; reflexivity).
    replace (Z.ltb (fst b + i) 0) with false by lia. cbn [andb orb]. f_equal. f_equal.
    destruct (Z.eqb_spec (snd b) n) as [E|E].
    + replace (Z.leb (snd b - fst b) i) with (Z.leb n (fst b + i)) by lia. rewrite andb_true_r. reflexivity.
    + replace (Z.leb n (fst b + i)) with false by lia. rewrite andb_false_r. reflexivity.
Qed.

Lemma apply_one_do (lower isq : bool) fn neq d D (b : Z * Z) (s : arr * arr) :
  (if lower then Z.eqb (fst b) 0 else Z.eqb (snd b) (ncells D)) = true ->
  standard (match lower, isq with true, true => q_lo D | true, false => a_lo D
            | false, true => q_hi D | false, false => a_hi D end) ->
  apply_one V opp ng lower isq fn neq d (local_bc D b) s =
  match (if lower then do_lo else do_hi)
     (match lower, isq with true, true => q_lo D | true, false => a_lo D
            | false, true => q_hi D | false, false => a_hi D end) (Z.eqb (fst b) 0) (Z.eqb (snd b) (ncells D)) d (snd b - fst b) isq (reflect D) neq
      (if isq then fst s else snd s) with
  | Ok a => Ok (if isq then (a, snd s) else (fst s, a))
  | Raised e => Raised e end.
Proof.
  intros H Hs. unfold apply_one, local_bc. cbn [q_lo q_hi a_lo a_hi on_lo on_hi ncells reflect].
  destruct s as [s1 s2].
  destruct lower; rewrite ?H; cbn [do_lo do_hi]; unfold do_lo, do_hi; rewrite ?H.
  - destruct isq; destruct Hs as [E|[E|E]]; rewrite E; cbn [is_periodic andb]; try reflexivity;
    destruct (snd b =? ncells D); reflexivity.
  - destruct isq; destruct Hs as [E|[E|E]]; rewrite E; cbn [is_periodic andb]; try reflexivity;
    destruct (fst b =? 0); reflexivity.
Qed.

Definition src_ats (lo hi : dimbc -> bctype) (Ds : list dimbc) (bs : list (Z * Z)) (pos : list Z) : list Z :=
  map (fun p => src_at (lo (fst (fst p))) (hi (fst (fst p))) (ncells (fst (fst p))) (snd (fst p)) (snd p)) (combine (combine Ds bs) pos).
(** A local position in global cells *)
Definition global_pos (bs : list (Z * Z)) (pos : list Z) : list Z := map (fun p => fst (fst p) + snd p) (combine bs pos).

Lemma fit_box_ok has_aux neq D b : fit_box ng has_aux neq D b -> box_ok (ncells D) b.
Proof. unfold fit_box, box_ok. tauto. Qed.

Lemma par_dims_at has_aux F neq : forall Ds bs d (s : arr * arr),
  (1 <= ng)%nat -> Forall2 (fit_box ng has_aux neq) Ds bs ->
  exists s', apply_dims V opp ng has_aux F neq d (local_bcs Ds bs) s = Ok s' /\
  (forall pre c pos, length pre = d -> in_box ng (local_bcs Ds bs) pos ->
     fst s' c (pre ++ shift g pos) = qwrap V opp c (combine Ds (global_pos bs pos)) (fst s c (pre ++ shift g (src_ats q_lo q_hi Ds bs pos)))) /\
  (has_aux = true -> forall pre c pos, length pre = d -> in_box ng (local_bcs Ds bs) pos ->
     snd s' c (pre ++ shift g pos) = snd s c (pre ++ shift g (src_ats a_lo a_hi Ds bs pos))) /\
  (has_aux = false -> snd s' = snd s).
Proof.
  induction Ds as [|D Ds IH]; intros bs d s Hg HF; inversion HF as [|? b ? bs' HD HF']; subst.
  - exists s. split; [reflexivity|]. split; [|split; [|reflexivity]];
      [intros pre c pos Hd Hp|intros _ pre c pos Hd Hp]; destruct pos; try contradiction; reflexivity.
  - pose proof (fit_box_ok _ _ _ _ HD) as HB. destruct HD as (Hr & Q1 & Q2 & HA & _).
    destruct (both_at true (q_lo D) (q_hi D) d (ncells D) b (reflect D) neq (fst s) Q1 Q2 Hg HB (fun E _ => Hr E))
      as (q1 & q2 & Eq1 & Eq2 & Hq).
    assert (Hsides : exists x2,
       (bind (apply_side V opp ng true has_aux F neq d (local_bc D b) s) (fun s1 =>
          apply_side V opp ng false has_aux F neq d (local_bc D b) s1) = Ok (q2, x2)) /\
       (has_aux = true -> forall pre c i rest, length pre = d -> - g <= i < snd b - fst b + g ->
           x2 c (pre ++ (i + g) :: rest) = snd s c (pre ++ (src_at (a_lo D) (a_hi D) (ncells D) b i + g) :: rest)) /\
       (has_aux = false -> x2 = snd s)).
    { assert (Lo : forall x1, (has_aux = true -> do_lo (a_lo D) (Z.eqb (fst b) 0) (Z.eqb (snd b) (ncells D)) d (snd b - fst b) false (reflect D) neq (snd s) = Ok x1) ->
          (has_aux = false -> x1 = snd s) -> apply_side V opp ng true has_aux F neq d (local_bc D b) s = Ok (q1, x1)).
      { intros x1 Hx1 Hx1'. unfold apply_side. cbn [local_bc on_lo]. destruct (fst b =? 0) eqn:E0.
        - destruct has_aux.
          + destruct (HA eq_refl) as [A1 A2]. rewrite (apply_one_do true false) by assumption. rewrite E0.
            rewrite (Hx1 eq_refl). cbn [bind]. rewrite (apply_one_do true true) by assumption. cbn [fst snd]. rewrite E0, Eq1. reflexivity.
          + cbn [bind]. rewrite (apply_one_do true true) by assumption. rewrite E0, Eq1. rewrite (Hx1' eq_refl). reflexivity.
        - unfold do_lo in Eq1. injection Eq1 as <-. destruct has_aux.
          + specialize (Hx1 eq_refl). unfold do_lo in Hx1. injection Hx1 as <-. destruct s; reflexivity.
          + rewrite (Hx1' eq_refl). destruct s; reflexivity. }
      assert (Hi : forall x1 x2, (has_aux = true -> do_hi (a_hi D) (Z.eqb (fst b) 0) (Z.eqb (snd b) (ncells D)) d (snd b - fst b) false (reflect D) neq x1 = Ok x2) ->
          (has_aux = false -> x1 = x2) -> apply_side V opp ng false has_aux F neq d (local_bc D b) (q1, x1) = Ok (q2, x2)).
      { intros x1 x2 Hx1 Hx1'. unfold apply_side. cbn [local_bc on_hi]. destruct (snd b =? ncells D) eqn:E0.
        - destruct has_aux.
          + destruct (HA eq_refl) as [A1 A2]. rewrite (apply_one_do false false) by assumption. rewrite E0. cbn [fst snd].
            rewrite (Hx1 eq_refl). cbn [bind]. rewrite (apply_one_do false true) by assumption. cbn [fst snd]. rewrite E0, Eq2. reflexivity.
          + cbn [bind]. rewrite (apply_one_do false true) by assumption. cbn [fst snd]. rewrite E0, Eq2. rewrite (Hx1' eq_refl). reflexivity.
        - unfold do_hi in Eq2. injection Eq2 as <-. destruct has_aux.
          + specialize (Hx1 eq_refl). unfold do_hi in Hx1. injection Hx1 as <-. reflexivity.
          + rewrite (Hx1' eq_refl). reflexivity. }
      destruct has_aux.
      - destruct (HA eq_refl) as (A1 & A2).
        destruct (both_at false (a_lo D) (a_hi D) d (ncells D) b (reflect D) neq (snd s) A1 A2 Hg HB (fun _ E => ltac:(discriminate E)))
          as (x1 & x2 & Ex1 & Ex2 & Hx).
        exists x2. split; [|split; [intros _; exact Hx|discriminate]].
        rewrite (Lo x1); [|auto|discriminate]. cbn [bind]. apply Hi; [auto|discriminate].
      - exists (snd s). split; [|split; [discriminate|reflexivity]].
        rewrite (Lo (snd s)); [|discriminate|auto]. cbn [bind]. apply Hi; [discriminate|auto]. }
    destruct Hsides as (x2 & Es & Hx & Hx').
    destruct (IH bs' (S d) (q2, x2) Hg HF') as (s' & E' & Cq & Ca & Ca').
    assert (Hlen : forall pre (v : Z), length pre = d -> length (pre ++ [v]) = S d)
      by (intros; rewrite app_length; simpl; lia).
    exists s'. split.
    { unfold local_bcs. cbn [combine map apply_dims fst snd]. destruct (apply_side V opp ng true has_aux F neq d (local_bc D b) s) as [s1|e]; [|discriminate].
      cbn [bind] in Es |- *. rewrite Es. cbn [bind]. exact E'. }
    split; [|split].
    + intros pre c pos Hd Hp. destruct pos as [|i pos]; [contradiction|]. destruct Hp as [Hi Hp].
      cbn [local_bc ncells fst snd] in Hi.
      cbn [shift map combine src_ats global_pos fst snd].
      replace (pre ++ (i + g) :: map (fun i => i + g) pos) with ((pre ++ [i + g]) ++ shift g pos)
        by (rewrite <- app_assoc; reflexivity).
      rewrite Cq by auto. rewrite qwrap_cons. f_equal.
      rewrite <- app_assoc. cbn [app fst snd]. rewrite Hq by assumption. cbn [fst snd andb].
      unfold flip. destruct (_ && _)%bool; reflexivity.
    + intros Ha pre c pos Hd Hp. destruct pos as [|i pos]; [contradiction|]. destruct Hp as [Hi Hp].
      cbn [local_bc ncells fst snd] in Hi.
      cbn [shift map combine src_ats fst snd].
      replace (pre ++ (i + g) :: map (fun i => i + g) pos) with ((pre ++ [i + g]) ++ shift g pos)
        by (rewrite <- app_assoc; reflexivity).
      rewrite Ca by auto.
      rewrite <- app_assoc. cbn [app fst snd]. rewrite Hx by assumption. reflexivity.
    + intros Ha. rewrite (Ca' Ha). cbn [snd]. auto.
Qed.

Lemma g2l_src lo hi has_aux neq : forall Ds bs pos, (1 <= ng)%nat ->
  Forall2 (fit_box ng has_aux neq) Ds bs -> Forall (fun D => standard (lo D) /\ standard (hi D)) Ds ->
  in_box ng (local_bcs Ds bs) pos ->
  map (fun p => wrap (fst (fst p)) (snd (fst p) + snd p - g)) (combine (combine (map ncells Ds) (map fst bs)) (shift g (src_ats lo hi Ds bs pos)))
  = srcs lo hi Ds (global_pos bs pos).
Proof.
  induction Ds as [|D Ds IH]; intros bs pos Hg HF HS Hp; inversion HF as [|? b ? bs' HD HF']; subst.
  - destruct pos; [reflexivity|contradiction].
  - destruct pos as [|i pos]; [contradiction|]. destruct Hp as [Hi Hp]. cbn [local_bc ncells fst snd] in Hi. inversion HS as [|? ? [S1 S2] HS']; subst.
    cbn [map combine src_ats shift global_pos srcs fst snd]. f_equal.
    + rewrite <- src_global with (b := b); try assumption; [f_equal; lia|]. eapply fit_box_ok; eassumption.
    + apply IH; assumption.
Qed.

Theorem par_bcs_at has_aux F neq Ds bs (q aux auxbc0 : arr) :
  (1 <= ng)%nat -> Forall2 (fit_box ng has_aux neq) Ds bs ->
  exists qbc auxbc, par_apply_bcs opp ng has_aux F neq Ds bs q aux auxbc0 = Ok (qbc, auxbc) /\
  (forall c pos, in_box ng (local_bcs Ds bs) pos -> qbc c (shift g pos) = q_ghost_value V opp Ds q c (global_pos bs pos)) /\
  (has_aux = true -> forall c pos, in_box ng (local_bcs Ds bs) pos -> auxbc c (shift g pos) = aux_ghost_value V Ds aux c (global_pos bs pos)) /\
  (has_aux = false -> auxbc = auxbc0).
Proof.
  intros Hg HF. unfold par_apply_bcs.
  destruct (par_dims_at has_aux F neq Ds bs 0 (global_to_local g (map ncells Ds) (map fst bs) q,
    if has_aux then global_to_local g (map ncells Ds) (map fst bs) aux else auxbc0) Hg HF) as ((qb & xb) & E & A & B & C).
  exists qb, xb. split; [exact E|]. cbn [fst snd] in *.
  assert (FS : Forall (fun D => standard (q_lo D) /\ standard (q_hi D)) Ds /\ (has_aux = true -> Forall (fun D => standard (a_lo D) /\ standard (a_hi D)) Ds)).
  { clear -HF. induction HF as [|D b Ds bs HD HF IH]; [auto|]. destruct IH as [I1 I2]. destruct HD as (_ & Q1 & Q2 & HA & _).
    split; [constructor; auto|]. intros Ha. constructor; auto. }
  destruct FS as [FQ FA].
  split; [|split].
  - intros c pos Hp. change (shift g pos) with ([] ++ shift g pos). rewrite (A [] c pos eq_refl Hp). cbn [app].
    unfold global_to_local. erewrite g2l_src by eassumption. reflexivity.
  - intros -> c pos Hp. change (shift g pos) with ([] ++ shift g pos). rewrite (B eq_refl [] c pos eq_refl Hp). cbn [app].
    unfold global_to_local. erewrite g2l_src by eauto. reflexivity.
  - intros ->. apply C. reflexivity.
Qed.
End P.

(** Boxes of a decomposition *)
Lemma decomposed_box ng has_aux neq D bs b : (1 <= ng)%nat ->
  (q_lo D = Wall \/ q_hi D = Wall -> 0 <= reflect D < neq) -> standard (q_lo D) -> standard (q_hi D) ->
  (has_aux = true -> standard (a_lo D) /\ standard (a_hi D)) ->
  decomposed ng (ncells D) bs -> In b bs -> fit_box ng has_aux neq D b.
Proof.
  intros Hg Hr H1 H2 H3 [HC HF] Hin. unfold fit_box. cbv zeta. repeat (split; [assumption|]).
  assert (G : forall lo bs, cuts lo (ncells D) bs -> Forall (fun b => (Z.of_nat ng <= snd b - fst b)%Z) bs -> In b bs ->
     (lo <= fst b /\ fst b < snd b /\ Z.of_nat ng <= snd b - fst b /\ snd b <= ncells D) /\
     (fst b = lo \/ lo + Z.of_nat ng <= fst b) /\ (snd b = ncells D \/ snd b + Z.of_nat ng <= ncells D)).
  { clear -Hg. intros lo bs. revert lo. induction bs as [|[x y] bs IH]; intros lo HC HF Hin; [contradiction|].
    destruct HC as (-> & Hlt & HC). inversion HF as [|? ? Hw HF']; subst. cbn [fst snd] in *.
    assert (E : y = ncells D \/ y + Z.of_nat ng <= ncells D).
    { clear -HC HF' Hg. destruct bs as [|[x' y'] bs]; [left; exact HC|]. right. destruct HC as (-> & L & HC). inversion HF' as [|? ? Hw HF'']; subst. cbn [fst snd] in *.
      assert (M : forall bs lo, cuts lo (ncells D) bs -> lo <= ncells D).
      { clear. induction bs as [|[x y] bs IH]; intros lo H; [cbn in H; lia|]. destruct H as (-> & L & H). specialize (IH _ H). lia. }
      specialize (M _ _ HC). lia. }
    destruct Hin as [<-|Hin].
    - cbn [fst snd]. lia.
    - destruct (IH y HC HF' Hin) as (A & B & C). lia. }
  destruct (G 0 bs HC HF Hin) as (A & B & C). split; [exact A|]. split; [lia|exact C].
Qed.
