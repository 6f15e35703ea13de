(** Proofs about the ghost-cell model. *)
From Verif Require Import Base BCModel BCSpec.
Local Open Scope Z_scope.

Section P.
Variable V : Type.
Variable opp : V -> V.
Notation arr := (arr V).

Lemma get_app pre i rest : get (length pre) (pre ++ i :: rest) = i.
Proof. induction pre; simpl; auto. Qed.
Lemma put_app pre v i rest : put (length pre) v (pre ++ i :: rest) = pre ++ v :: rest.
Proof. induction pre; simpl; congruence. Qed.

(** A loop of layer copies whose sources are never overwritten. *)
Lemma for_copy (f : Z -> arr -> arr) (dst src : Z -> Z) (sgn : Z -> V -> V) n pre :
  (forall k a c i rest, 0 <= k < Z.of_nat n ->
     f k a c (pre ++ i :: rest) =
       if Z.eqb i (dst k) then sgn c (a c (pre ++ src k :: rest)) else a c (pre ++ i :: rest)) ->
  (forall k l, 0 <= k < Z.of_nat n -> 0 <= l < Z.of_nat n -> dst k = dst l -> k = l) ->
  (forall k l, 0 <= k < Z.of_nat n -> 0 <= l < Z.of_nat n -> src k <> dst l) ->
  forall a c i rest,
  (forall k, 0 <= k < Z.of_nat n -> i = dst k ->
     for_range V n f a c (pre ++ i :: rest) = sgn c (a c (pre ++ src k :: rest))) /\
  ((forall k, 0 <= k < Z.of_nat n -> i <> dst k) ->
     for_range V n f a c (pre ++ i :: rest) = a c (pre ++ i :: rest)).
Proof.
  induction n; intros Hf Hinj Hsep a c i rest.
  - split; intros; [lia|reflexivity].
  - assert (IH := IHn (fun k a c i rest Hk => Hf k a c i rest ltac:(lia))
       (fun k l Hk Hl => Hinj k l ltac:(lia) ltac:(lia))
       (fun k l Hk Hl => Hsep k l ltac:(lia) ltac:(lia))). clear IHn.
    cbn [for_range]. rewrite (Hf (Z.of_nat n)) by lia.
    split.
    + intros k Hk Hi. destruct (Z.eqb_spec i (dst (Z.of_nat n))) as [E|E].
      * assert (k = Z.of_nat n) by (apply Hinj; try lia; congruence). subst k.
        f_equal. apply IH. intros l Hl. apply Hsep; lia.
      * assert (k <> Z.of_nat n) by congruence. apply IH; [lia|assumption].
    + intros Hno. destruct (Z.eqb_spec i (dst (Z.of_nat n))) as [E|E].
      * exfalso. apply (Hno (Z.of_nat n)); [lia|assumption].
      * apply IH. intros k Hk. apply Hno. lia.
Qed.

Variable ng : nat.
Notation g := (Z.of_nat ng).

Lemma copy_layer_at pre dst src (a : arr) c i rest :
  copy_layer V (length pre) dst src a c (pre ++ i :: rest) =
  if Z.eqb i dst then a c (pre ++ src :: rest) else a c (pre ++ i :: rest).
Proof. unfold copy_layer. rewrite get_app, put_app. reflexivity. Qed.
Lemma wall_layer_at pre r dst src (a : arr) c i rest : src <> dst ->
  neg_layer V opp (length pre) r dst src (copy_layer V (length pre) dst src a) c (pre ++ i :: rest) =
  if Z.eqb i dst then (if Z.eqb c r then opp (a c (pre ++ src :: rest)) else a c (pre ++ src :: rest))
  else a c (pre ++ i :: rest).
Proof.
  intros H. unfold neg_layer. rewrite get_app, put_app, !copy_layer_at.
  destruct (Z.eqb_spec c r), (Z.eqb_spec i dst), (Z.eqb_spec src dst); simpl; congruence.
Qed.

(** What one side does, at every index. *)
Definition sgn (isq : bool) (ty : bctype) (refl c : Z) (v : V) : V :=
  if (isq && match ty with Wall => true | _ => false end && Z.eqb c refl)%bool then opp v else v.

Lemma bc_lower_at ty d N isq refl neq (a : arr) :
  standard ty -> (1 <= ng)%nat -> 1 <= N - 2 * g -> (ty = Wall -> isq = true -> 0 <= refl < neq) ->
  (ty = Extrap \/ g <= N - 2 * g) ->
  exists a', bc_lower V opp ng ty d N isq refl neq a = Ok a' /\
  forall pre c i rest, length pre = d -> 0 <= i < N ->
  a' c (pre ++ i :: rest) =
  if Z.ltb i g then
    sgn isq ty refl c (a c (pre ++ (match ty with Periodic => i + (N - 2 * g) | Wall => 2 * g - 1 - i | _ => g end) :: rest))
  else a c (pre ++ i :: rest).
Proof.
  intros Hs Hg HN Hr Hw. destruct Hs as [E|[E|E]]; subst ty; cbn [bc_lower].
  - eexists; split; [reflexivity|]. intros pre c i rest <- Hi. unfold sgn. rewrite andb_false_r. cbn [andb].
    destruct (for_copy (fun i => copy_layer V (length pre) i g) (fun k => k) (fun _ => g) (fun _ v => v) ng pre
      ltac:(intros; apply copy_layer_at) ltac:(cbv beta; intros; lia) ltac:(cbv beta; intros; lia) a c i rest) as [A B].
    destruct (Z.ltb_spec i g); [apply (A i); lia|apply B; lia].
  - eexists; split; [reflexivity|]. intros pre c i rest <- Hi. unfold sgn. rewrite andb_false_r. cbn [andb].
    rewrite get_app, put_app. reflexivity.
  - assert (Hw' : g <= N - 2 * g) by (destruct Hw; [discriminate|assumption]).
    destruct isq.
    + pose proof (Hr eq_refl eq_refl) as Hr'. replace (Z.leb 0 refl && Z.ltb refl neq)%bool with true by lia.
      cbn [negb]; rewrite ?andb_false_r.
      eexists; split; [reflexivity|]. intros pre c i rest <- Hi. unfold sgn. cbn [andb].
      destruct (for_copy (fun i a => neg_layer V opp (length pre) refl i (2 * g - 1 - i)
           (copy_layer V (length pre) i (2 * g - 1 - i) a)) (fun k => k) (fun k => 2 * g - 1 - k)
           (fun c v => if Z.eqb c refl then opp v else v) ng pre
        ltac:(intros; apply wall_layer_at; lia) ltac:(cbv beta; intros; lia) ltac:(cbv beta; intros; lia) a c i rest) as [A B].
      destruct (Z.ltb_spec i g); [apply (A i); lia|apply B; lia].
    + eexists; split; [reflexivity|]. intros pre c i rest <- Hi. unfold sgn. cbn [andb].
      destruct (for_copy (fun i => copy_layer V (length pre) i (2 * g - 1 - i)) (fun k => k) (fun k => 2 * g - 1 - k)
           (fun c v => v) ng pre
        ltac:(intros; apply copy_layer_at) ltac:(cbv beta; intros; lia) ltac:(cbv beta; intros; lia) a c i rest) as [A B].
      destruct (Z.ltb_spec i g); [apply (A i); lia|apply B; lia].
Qed.

Lemma bc_upper_at ty d N isq refl neq (a : arr) :
  standard ty -> (1 <= ng)%nat -> 1 <= N - 2 * g -> (ty = Wall -> isq = true -> 0 <= refl < neq) ->
  (ty = Extrap \/ g <= N - 2 * g) ->
  exists a', bc_upper V opp ng ty d N isq refl neq a = Ok a' /\
  forall pre c i rest, length pre = d -> 0 <= i < N ->
  a' c (pre ++ i :: rest) =
  if Z.leb (N - g) i then
    sgn isq ty refl c (a c (pre ++ (match ty with Periodic => i - (N - 2 * g)
                                    | Wall => 2 * (N - g) - 1 - i | _ => N - g - 1 end) :: rest))
  else a c (pre ++ i :: rest).
Proof.
  intros Hs Hg HN Hr Hw. destruct Hs as [E|[E|E]]; subst ty; cbn [bc_upper].
  - eexists; split; [reflexivity|]. intros pre c i rest <- Hi. unfold sgn. rewrite andb_false_r. cbn [andb].
    destruct (for_copy (fun i => copy_layer V (length pre) (N - i - 1) (N - g - 1)) (fun k => N - k - 1) (fun _ => N - g - 1) (fun _ v => v) ng pre
      ltac:(intros; apply copy_layer_at) ltac:(cbv beta; intros; lia) ltac:(cbv beta; intros; lia) a c i rest) as [A B].
    destruct (Z.leb_spec (N - g) i); [apply (A (N - 1 - i)); lia|apply B; lia].
  - eexists; split; [reflexivity|]. intros pre c i rest <- Hi. unfold sgn. rewrite andb_false_r. cbn [andb].
    rewrite get_app, put_app. destruct (Z.leb (N - g) i); [|reflexivity]. do 3 f_equal. lia.
  - assert (Hw' : g <= N - 2 * g) by (destruct Hw; [discriminate|assumption]).
    destruct isq.
    + pose proof (Hr eq_refl eq_refl) as Hr'. replace (Z.leb 0 refl && Z.ltb refl neq)%bool with true by lia.
      cbn [negb]; rewrite ?andb_false_r.
      eexists; split; [reflexivity|]. intros pre c i rest <- Hi. unfold sgn. cbn [andb].
      destruct (for_copy (fun i a => neg_layer V opp (length pre) refl (N - i - 1) (N - 2 * g + i)
           (copy_layer V (length pre) (N - i - 1) (N - 2 * g + i) a)) (fun k => N - k - 1) (fun k => N - 2 * g + k)
           (fun c v => if Z.eqb c refl then opp v else v) ng pre
        ltac:(intros; apply wall_layer_at; lia) ltac:(cbv beta; intros; lia) ltac:(cbv beta; intros; lia) a c i rest) as [A B].
      destruct (Z.leb_spec (N - g) i); [|apply B; lia].
      rewrite (A (N - 1 - i)) by lia. replace (N - 2 * g + (N - 1 - i)) with (2 * (N - g) - 1 - i) by lia. reflexivity.
    + eexists; split; [reflexivity|]. intros pre c i rest <- Hi. unfold sgn. cbn [andb].
      destruct (for_copy (fun i => copy_layer V (length pre) (N - i - 1) (N - 2 * g + i)) (fun k => N - k - 1) (fun k => N - 2 * g + k)
           (fun c v => v) ng pre
        ltac:(intros; apply copy_layer_at) ltac:(cbv beta; intros; lia) ltac:(cbv beta; intros; lia) a c i rest) as [A B].
      destruct (Z.leb_spec (N - g) i); [|apply B; lia].
      rewrite (A (N - 1 - i)) by lia. replace (N - 2 * g + (N - 1 - i)) with (2 * (N - g) - 1 - i) by lia. reflexivity.
Qed.

(** Both sides of one dimension, for one array. *)
Definition dim_sign (isq : bool) (D : dimbc) (c : Z) (i : Z) (v : V) : V :=
  if (isq && Z.eqb c (reflect D) && behind_wall (q_lo D) (q_hi D) (ncells D) i)%bool then opp v else v.

Lemma both_sides isq lo hi refl neq d n (a : arr) :
  standard lo -> standard hi -> (1 <= ng)%nat -> (lo = Wall \/ hi = Wall -> isq = true -> 0 <= refl < neq) -> wide ng lo hi n ->
  exists a1 a2,
  bc_lower V opp ng lo d (n + 2 * g) isq refl neq a = Ok a1 /\
  bc_upper V opp ng hi d (n + 2 * g) isq refl neq a1 = Ok a2 /\
  forall pre c i rest, length pre = d -> - g <= i < n + g ->
    a2 c (pre ++ (i + g) :: rest) =
    (if (isq && Z.eqb c refl && behind_wall lo hi n i)%bool then opp else fun v => v)
      (a c (pre ++ (source_cell lo hi n i + g) :: rest)).
Proof.
  intros Hlo Hhi Hg Hr (W1 & W2 & W3).
  destruct (bc_lower_at lo d (n + 2 * g) isq refl neq a Hlo Hg ltac:(lia) (fun E => Hr (or_introl E)) ltac:(destruct W1; [left; assumption|right; lia])) as (a1 & E1 & A1).
  destruct (bc_upper_at hi d (n + 2 * g) isq refl neq a1 Hhi Hg ltac:(lia) (fun E => Hr (or_intror E)) ltac:(destruct W2; [left; assumption|right; lia])) as (a2 & E2 & A2).
  exists a1, a2. split; [exact E1|]. split; [exact E2|].
  intros pre c i rest Hd Hi. rewrite A2 by (assumption || lia). unfold source_cell, behind_wall.
  destruct (Z.leb_spec (n + 2 * g - g) (i + g)).
  - replace (Z.ltb i 0) with false by lia. replace (Z.leb n i) with true by lia. cbn [andb orb].
    assert (Hsrc : forall j, g <= j < n + g -> a1 c (pre ++ j :: rest) = a c (pre ++ j :: rest)).
    { intros j Hj. rewrite A1 by (assumption || lia). replace (Z.ltb j g) with false by lia. reflexivity. }
    unfold sgn. destruct Hhi as [E|[E|E]]; subst hi; rewrite ?andb_false_r; cbn [andb].
    + rewrite Hsrc by lia. do 3 f_equal. lia.
    + destruct W2 as [|W2]; [discriminate|]. rewrite Hsrc by lia. do 3 f_equal. lia.
    + destruct W2 as [|W2]; [discriminate|]. rewrite Hsrc by lia.
      replace (2 * (n + 2 * g - g) - 1 - (i + g)) with (2 * n - 1 - i + g) by lia.
      rewrite !andb_true_r. destruct isq, (Z.eqb c refl); reflexivity.
  - rewrite A1 by (assumption || lia). destruct (Z.ltb_spec (i + g) g).
    + replace (Z.ltb i 0) with true by lia. replace (Z.leb n i) with false by lia. cbn [andb orb].
      unfold sgn. destruct Hlo as [E|[E|E]]; subst lo; rewrite ?andb_false_r; cbn [andb orb].
      * do 3 f_equal.
      * do 3 f_equal. lia.
      * replace (2 * g - 1 - (i + g)) with (-1 - i + g) by lia.
        destruct isq, (Z.eqb c refl); reflexivity.
    + replace (Z.ltb i 0) with false by lia. replace (Z.leb n i) with false by lia.
      cbn [andb orb]. rewrite andb_false_r. reflexivity.
Qed.

Definition srcs (lo hi : dimbc -> bctype) (Ds : list dimbc) (pos : list Z) : list Z :=
  map (fun p => source_cell (lo (fst p)) (hi (fst p)) (ncells (fst p)) (snd p)) (combine Ds pos).

Definition qwrap (c : Z) (l : list (dimbc * Z)) (v : V) : V :=
  fold_right (fun p v => if (Z.eqb c (reflect (fst p)) &&
                             behind_wall (q_lo (fst p)) (q_hi (fst p)) (ncells (fst p)) (snd p))%bool
                         then opp v else v) v (rev l).

Lemma qwrap_cons c p l v : qwrap c (p :: l) v =
  qwrap c l (if (Z.eqb c (reflect (fst p)) &&
                             behind_wall (q_lo (fst p)) (q_hi (fst p)) (ncells (fst p)) (snd p))%bool
                         then opp v else v).
Proof. unfold qwrap. cbn [rev]. rewrite fold_right_app. reflexivity. Qed.

Lemma apply_one_standard lower isq fn neq d D (s : arr * arr) :
  on_lo D = true -> on_hi D = true ->
  standard (match lower, isq with true, true => q_lo D | true, false => a_lo D
            | false, true => q_hi D | false, false => a_hi D end) ->
  apply_one V opp ng lower isq fn neq d D s =
  match (if lower then bc_lower V opp ng else bc_upper V opp ng)
     (match lower, isq with true, true => q_lo D | true, false => a_lo D
            | false, true => q_hi D | false, false => a_hi D end) d (ncells D + 2 * g) isq (reflect D) neq
      (if isq then fst s else snd s) with
  | Ok a => Ok (if isq then (a, snd s) else (fst s, a))
  | Raised e => Raised e end.
Proof.
  intros H1 H2 Hs. unfold apply_one. rewrite H1, H2.
  destruct lower, isq; destruct Hs as [E|[E|E]]; rewrite E; reflexivity.
Qed.

Lemma apply_dims_at has_aux F neq : forall Ds d (s : arr * arr),
  (1 <= ng)%nat -> Forall (fit_dim ng has_aux neq) Ds ->
  exists s', apply_dims V opp ng has_aux F neq d Ds s = Ok s' /\
  (forall pre c pos, length pre = d -> in_box ng Ds pos ->
     fst s' c (pre ++ shift g pos) = qwrap c (combine Ds pos) (fst s c (pre ++ shift g (srcs q_lo q_hi Ds pos)))) /\
  (has_aux = true -> forall pre c pos, length pre = d -> in_box ng Ds pos ->
     snd s' c (pre ++ shift g pos) = snd s c (pre ++ shift g (srcs a_lo a_hi Ds pos))) /\
  (has_aux = false -> snd s' = snd s).
Proof.
  induction Ds as [|D Ds IH]; intros d s Hg HF.
  - exists s. split; [reflexivity|]. split; [|split; [|reflexivity]];
      [intros pre c pos Hd Hp|intros _ pre c pos Hd Hp]; destruct pos; try contradiction; reflexivity.
  - inversion HF as [|? ? HD HF']; subst. destruct HD as (Hlo & Hhi & Hr & Q1 & Q2 & Q3 & HA).
    destruct (both_sides true (q_lo D) (q_hi D) (reflect D) neq d (ncells D) (fst s) Q1 Q2 Hg (fun E _ => Hr E) Q3)
      as (q1 & q2 & Eq1 & Eq2 & Hq).
    assert (Hsides : exists x2,
       (bind (apply_side V opp ng true has_aux F neq d D s) (fun s1 =>
          apply_side V opp ng false has_aux F neq d D s1) = Ok (q2, x2)) /\
       (has_aux = true -> forall pre c i rest, length pre = d -> - g <= i < ncells D + g ->
           x2 c (pre ++ (i + g) :: rest) = snd s c (pre ++ (source_cell (a_lo D) (a_hi D) (ncells D) i + g) :: rest)) /\
       (has_aux = false -> x2 = snd s)).
    { unfold apply_side. rewrite Hlo, Hhi. destruct has_aux.
      - destruct (HA eq_refl) as (A1 & A2 & A3).
        destruct (both_sides false (a_lo D) (a_hi D) (reflect D) neq d (ncells D) (snd s) A1 A2 Hg (fun _ E => ltac:(discriminate E)) A3)
          as (x1 & x2 & Ex1 & Ex2 & Hx).
        exists x2. split; [|split; [intros _; exact Hx|discriminate]].
        rewrite (apply_one_standard true false) by assumption.
        rewrite Ex1. cbn [bind]. rewrite (apply_one_standard true true) by assumption. cbn [fst snd].
        rewrite Eq1. cbn [bind fst snd].
        rewrite (apply_one_standard false false) by assumption. cbn [fst snd].
        rewrite Ex2. cbn [bind]. rewrite (apply_one_standard false true) by assumption. cbn [fst snd].
        rewrite Eq2. reflexivity.
      - exists (snd s). split; [|split; [discriminate|reflexivity]].
        cbn [bind]. rewrite (apply_one_standard true true) by assumption.
        rewrite Eq1. cbn [bind fst snd]. rewrite (apply_one_standard false true) by assumption. cbn [fst snd].
        rewrite Eq2. reflexivity. }
    destruct Hsides as (x2 & Es & Hx & Hx').
    destruct (IH (S d) (q2, x2) Hg HF') as (s' & E' & Cq & Ca & Ca').
    assert (Hlen : forall pre (v : Z), length pre = d -> length (pre ++ [v]) = S d)
      by (intros; rewrite app_length; simpl; lia).
    exists s'. split.
    { cbn [apply_dims]. destruct (apply_side V opp ng true has_aux F neq d D s) as [s1|e]; [|discriminate].
      cbn [bind] in Es |- *. rewrite Es. cbn [bind]. exact E'. }
    split; [|split].
    + intros pre c pos Hd Hp. destruct pos as [|i pos]; [contradiction|]. destruct Hp as [Hi Hp].
      cbn [shift map combine srcs fst snd].
      replace (pre ++ (i + g) :: map (fun i => i + g) pos) with ((pre ++ [i + g]) ++ shift g pos)
        by (rewrite <- app_assoc; reflexivity).
      rewrite Cq by auto. rewrite qwrap_cons. f_equal.
      rewrite <- app_assoc. cbn [app fst snd]. rewrite Hq by assumption. cbn [fst snd andb].
      destruct (_ && _)%bool; reflexivity.
    + intros Ha pre c pos Hd Hp. destruct pos as [|i pos]; [contradiction|]. destruct Hp as [Hi Hp].
      cbn [shift map combine srcs fst snd].
      replace (pre ++ (i + g) :: map (fun i => i + g) pos) with ((pre ++ [i + g]) ++ shift g pos)
        by (rewrite <- app_assoc; reflexivity).
      rewrite Ca by auto.
      rewrite <- app_assoc. cbn [app fst snd]. rewrite Hx by assumption. reflexivity.
    + intros Ha. rewrite (Ca' Ha). cbn [snd]. auto.
Qed.

(** Interior positions. *)
Lemma interior_shift : forall Ds pos, in_box ng Ds pos ->
  (forall p, In p (combine Ds pos) -> 0 <= snd p < ncells (fst p)) ->
  interior ng (map ncells Ds) (shift g pos) = true.
Proof.
  induction Ds as [|D Ds IH]; intros [|i pos] Hb Hp; try contradiction; [reflexivity|].
  destruct Hb as [Hi Hb]. cbn [map shift interior].
  pose proof (Hp (D, i) (or_introl eq_refl)) as H. cbn [fst snd] in H.
  replace (g <=? i + g) with true by lia. replace (i + g <? g + ncells D) with true by lia. cbn [andb].
  apply IH; [assumption|]. intros p Hin. apply Hp. right. exact Hin.
Qed.
Lemma shift_back k pos : shift (- k) (shift k pos) = pos.
Proof. unfold shift. rewrite map_map. rewrite <- (map_id pos) at 2. apply map_ext. intros; lia. Qed.
Lemma shift_fwd k pos : shift k (shift (- k) pos) = pos.
Proof. unfold shift. rewrite map_map. rewrite <- (map_id pos) at 2. apply map_ext. intros; lia. Qed.

Lemma source_in lo hi n i : standard lo -> standard hi -> wide ng lo hi n -> - g <= i < n + g ->
  0 <= source_cell lo hi n i < n.
Proof.
  intros Hlo Hhi (W1 & W2 & W3) Hi. unfold source_cell.
  destruct (Z.ltb_spec i 0); [|destruct (Z.leb_spec n i)]; try lia.
  - destruct Hlo as [E|[E|E]]; subst; try lia; destruct W1; try discriminate; lia.
  - destruct Hhi as [E|[E|E]]; subst; try lia; destruct W2; try discriminate; lia.
Qed.

Lemma srcs_box lo hi : forall Ds pos, in_box ng Ds pos ->
  Forall (fun D => standard (lo D) /\ standard (hi D) /\ wide ng (lo D) (hi D) (ncells D)) Ds ->
  in_box ng Ds (srcs lo hi Ds pos) /\
  (forall p, In p (combine Ds (srcs lo hi Ds pos)) -> 0 <= snd p < ncells (fst p)).
Proof.
  induction Ds as [|D Ds IH]; intros [|i pos] Hb HF; try contradiction.
  - split; [exact I|]. intros p Hin. destruct Hin.
  - destruct Hb as [Hi Hb]. inversion HF as [|? ? (A & B & C) HF']; subst.
    pose proof (source_in _ _ _ _ A B C Hi) as Hs.
    destruct (IH pos Hb HF') as [H1 H2]. cbn [srcs combine map fst snd in_box]. split; [split; [lia|exact H1]|].
    intros p [<-|Hin]; [exact Hs|apply H2; exact Hin].
Qed.

Theorem apply_bcs_at has_aux F neq Ds (q aux qbc0 auxbc0 : arr) :
  (1 <= ng)%nat -> Forall (fit_dim ng has_aux neq) Ds ->
  exists qbc auxbc, apply_bcs V opp ng has_aux F neq Ds q aux qbc0 auxbc0 = Ok (qbc, auxbc) /\
  (forall c pos, in_box ng Ds pos -> qbc c (shift g pos) = q_ghost_value V opp Ds q c pos) /\
  (has_aux = true -> forall c pos, in_box ng Ds pos -> auxbc c (shift g pos) = aux_ghost_value V Ds aux c pos) /\
  (has_aux = false -> auxbc = auxbc0).
Proof.
  intros Hg HF. unfold apply_bcs.
  destruct (apply_dims_at has_aux F neq Ds 0 (get_qbc_from_q V ng (map ncells Ds) q qbc0,
    if has_aux then get_qbc_from_q V ng (map ncells Ds) aux auxbc0 else auxbc0) Hg HF) as ((qb & xb) & E & A & B & C).
  exists qb, xb. split; [exact E|]. cbn [fst snd] in *. split; [|split].
  - intros c pos Hp. change (shift g pos) with ([] ++ shift g pos). rewrite (A [] c pos eq_refl Hp). cbn [app].
    assert (HF' : Forall (fun D => standard (q_lo D) /\ standard (q_hi D) /\ wide ng (q_lo D) (q_hi D) (ncells D)) Ds)
      by (eapply Forall_impl; [|exact HF]; unfold fit_dim; tauto).
    destruct (srcs_box q_lo q_hi Ds pos Hp HF') as [S1 S2].
    unfold get_qbc_from_q. rewrite interior_shift, shift_back by assumption. reflexivity.
  - intros -> c pos Hp. change (shift g pos) with ([] ++ shift g pos). rewrite (B eq_refl [] c pos eq_refl Hp). cbn [app].
    assert (HF' : Forall (fun D => standard (a_lo D) /\ standard (a_hi D) /\ wide ng (a_lo D) (a_hi D) (ncells D)) Ds)
      by (eapply Forall_impl; [|exact HF]; unfold fit_dim; tauto).
    destruct (srcs_box a_lo a_hi Ds pos Hp HF') as [S1 S2].
    unfold get_qbc_from_q. rewrite interior_shift, shift_back by assumption. reflexivity.
  - intros ->. apply C. reflexivity.
Qed.

(** Errors. *)
Definition fault_of {A} (o : outcome A) : option bcerr := match o with Ok _ => None | Raised e => Some e end.

Lemma apply_one_fault lower isq fn neq d D (s : arr * arr) :
  fault_of (apply_one V opp ng lower isq fn neq d D s) =
  type_fault ng (match lower, isq with true, true => q_lo D | true, false => a_lo D
            | false, true => q_hi D | false, false => a_hi D end) (is_some fn) isq
    (reflect D) neq.
Proof.
  unfold apply_one. set (ty := match lower, isq with true, true => q_lo D | true, false => a_lo D
            | false, true => q_hi D | false, false => a_hi D end).
  destruct ty; cbn [andb type_fault]; try (destruct lower; reflexivity).
  - destruct fn; reflexivity.
  - destruct (negb _); [reflexivity|]. destruct lower; reflexivity.
  - replace (Nat.ltb 0 ng) with (Z.ltb 0 g) by (destruct ng; reflexivity).
    destruct isq; cbn [andb]; destruct lower; cbn [bc_lower bc_upper]; try reflexivity;
    destruct (_ && _)%bool; reflexivity.
Qed.

Definition first {A} (l : list A) : option A := match l with [] => None | x :: _ => Some x end.

Lemma fault_bind {A B} (x : outcome A) (f : A -> outcome B) (o : option bcerr) :
  (forall a, x = Ok a -> fault_of (f a) = o) ->
  fault_of (bind x f) = match fault_of x with Some e => Some e | None => o end.
Proof. destruct x; simpl; intros H; [apply H|]; reflexivity. Qed.

Lemma first_app {A} (l m : list A) : first (l ++ m) = match first l with Some e => Some e | None => first m end.
Proof. destruct l; reflexivity. Qed.
Lemma first_opt (o : option bcerr) : first (match o with Some e => [e] | None => [] end) = o.
Proof. destruct o; reflexivity. Qed.

Lemma apply_side_fault lower has_aux F neq d D (s : arr * arr) :
  fault_of (apply_side V opp ng lower has_aux F neq d D s) = first (side_faults ng lower has_aux F neq D).
Proof.
  unfold apply_side, side_faults. destruct (if lower then on_lo D else on_hi D); [|reflexivity].
  rewrite first_app, first_opt.
  rewrite (fault_bind _ _ (type_fault ng (if lower then q_lo D else q_hi D)
              (is_some (if lower then f_q_lo V F else f_q_hi V F)) true (reflect D) neq)).
  - destruct has_aux; [|reflexivity].
    rewrite apply_one_fault, first_opt. destruct lower; reflexivity.
  - intros s' _. rewrite apply_one_fault. destruct lower; reflexivity.
Qed.

Lemma apply_dims_fault has_aux F neq : forall Ds d (s : arr * arr),
  fault_of (apply_dims V opp ng has_aux F neq d Ds s) = first (flat_map (dim_faults ng has_aux F neq) Ds).
Proof.
  induction Ds as [|D Ds IH]; intros d s; [reflexivity|]. cbn [apply_dims flat_map].
  unfold dim_faults at 1. rewrite !first_app, <- (apply_side_fault true has_aux F neq d D s).
  rewrite (fault_bind _ _ (match first (side_faults ng false has_aux F neq D) with Some e => Some e
     | None => first (flat_map (dim_faults ng has_aux F neq) Ds) end)).
  - destruct (fault_of _); reflexivity.
  - intros s1 _. rewrite <- (apply_side_fault _ _ _ _ d _ s1). apply fault_bind. intros s2 _. apply IH.
Qed.

Lemma in_domain_box : forall Ds pos, in_domain Ds pos -> in_box ng Ds pos.
Proof.
  induction Ds as [|D Ds IH]; intros [|i pos] H; try contradiction; [exact I|].
  destruct H as [Hi H]. split; [lia|auto].
Qed.
Lemma interior_iff : forall Ds pos, in_domain Ds pos -> interior ng (map ncells Ds) (shift g pos) = true.
Proof.
  intros Ds pos H. apply interior_shift; [apply in_domain_box; assumption|].
  revert pos H. induction Ds as [|D Ds IH]; intros [|i pos] H p Hin; try contradiction.
  destruct H as [Hi H]. destruct Hin as [<-|Hin]; [exact Hi|eapply IH; eassumption].
Qed.
Lemma interior_iff' : forall Ds pos, interior ng (map ncells Ds) (shift g pos) = true -> in_domain Ds pos.
Proof.
  induction Ds as [|D Ds IH]; intros [|i pos] H; try discriminate; [exact I|].
  cbn [map shift interior] in H. apply andb_true_iff in H. destruct H as [H1 H2].
  split; [lia|]. apply IH. exact H2.
Qed.
Lemma ghost_value_interior : forall Ds pos (q : arr) c, in_domain Ds pos ->
  q_ghost_value V opp Ds q c pos = q c pos.
Proof.
  intros Ds pos q c H. unfold q_ghost_value.
  change (qwrap c (combine Ds pos) (q c (srcs q_lo q_hi Ds pos)) = q c pos).
  assert (Hs : srcs q_lo q_hi Ds pos = pos).
  { revert pos H. induction Ds as [|D Ds IH]; intros [|i pos] H; try contradiction; [reflexivity|].
    destruct H as [Hi H]. cbn [srcs combine map fst snd]. f_equal; [|apply IH; exact H].
    unfold source_cell. replace (Z.ltb i 0) with false by lia. replace (Z.leb (ncells D) i) with false by lia. reflexivity. }
  rewrite Hs. clear Hs. generalize (q c pos). revert pos H.
  induction Ds as [|D Ds IH]; intros [|i pos] H v; try contradiction; [reflexivity|].
  destruct H as [Hi H]. cbn [combine]. rewrite qwrap_cons. cbn [fst snd].
  unfold behind_wall. replace (Z.ltb i 0) with false by lia. replace (Z.leb (ncells D) i) with false by lia.
  cbn [andb orb]. rewrite andb_false_r. apply IH. exact H.
Qed.
Lemma extrap_value : forall Ds pos (q : arr) c,
  Forall (fun D => q_lo D = Extrap /\ q_hi D = Extrap /\ 1 <= ncells D) Ds -> in_box ng Ds pos ->
  q_ghost_value V opp Ds q c pos = q c (map (fun p => Z.max 0 (Z.min (ncells (fst p) - 1) (snd p))) (combine Ds pos)).
Proof.
  intros Ds pos q c HF Hb. unfold q_ghost_value.
  change (qwrap c (combine Ds pos) (q c (srcs q_lo q_hi Ds pos)) =
    q c (map (fun p => Z.max 0 (Z.min (ncells (fst p) - 1) (snd p))) (combine Ds pos))).
  assert (Hs : srcs q_lo q_hi Ds pos = map (fun p => Z.max 0 (Z.min (ncells (fst p) - 1) (snd p))) (combine Ds pos)).
  { unfold srcs. revert pos Hb. induction Ds as [|D Ds IH]; intros [|i pos] H; try contradiction; [reflexivity|].
    inversion HF as [|? ? (A & B & C) HF']; subst.
    destruct H as [Hi H]. cbn [combine map fst snd]. f_equal; [|apply IH; assumption].
    unfold source_cell. rewrite A, B. destruct (Z.ltb_spec i 0); [lia|]. destruct (Z.leb_spec (ncells D) i); lia. }
  rewrite Hs. clear Hs. generalize (q c (map (fun p => Z.max 0 (Z.min (ncells (fst p) - 1) (snd p))) (combine Ds pos))). revert pos Hb.
  induction Ds as [|D Ds IH]; intros [|i pos] H v; try contradiction; [reflexivity|].
  inversion HF as [|? ? (A & B & C) HF']; subst.
  destruct H as [Hi H]. cbn [combine]. rewrite qwrap_cons. cbn [fst snd].
  unfold behind_wall. rewrite A, B. rewrite !andb_false_r. cbn [orb andb]. rewrite ?andb_false_r. apply IH; assumption.
Qed.
Lemma flat_map_nil {A B} (f : A -> list B) l : (forall x, In x l -> f x = []) -> flat_map f l = [].
Proof.
  induction l as [|x l IH]; intros H; [reflexivity|]. simpl. rewrite H by (left; reflexivity).
  apply IH. intros y Hy. apply H. right. exact Hy.
Qed.
Lemma valid_no_faults F neq Ds :
  bcs_valid V F Ds = true ->
  Forall (fun D => q_lo D <> Unknown /\ q_hi D <> Unknown /\
                   (q_lo D = Wall \/ q_hi D = Wall -> 0 <= reflect D < neq)) Ds ->
  forall e rest, flat_map (dim_faults ng false F neq) Ds <> e :: rest.
Proof.
  intros Hv HF e rest H.
  unfold bcs_valid in Hv. apply negb_true_iff, orb_false_iff in Hv. destruct Hv as [Hv U].
  apply orb_false_iff in Hv. destruct Hv as [L R].
  assert (Hall : flat_map (dim_faults ng false F neq) Ds = []).
  { apply flat_map_nil. intros D Hin. rewrite Forall_forall in HF. destruct (HF D Hin) as (K1 & K2 & K3).
    assert (U' : (match q_lo D with Unset => true | _ => false end || match q_hi D with Unset => true | _ => false end)%bool = false).
    { apply not_true_iff_false. intro E. apply not_true_iff_false in U. apply U. apply existsb_exists. exists D. split; assumption. }
    assert (L' : q_lo D = Custom -> is_some (f_q_lo V F) = true).
    { intros E. destruct (f_q_lo V F); [reflexivity|]. rewrite andb_true_r in L. exfalso.
      apply not_true_iff_false in L. apply L. apply existsb_exists. exists D. rewrite E. split; [assumption|reflexivity]. }
    assert (R' : q_hi D = Custom -> is_some (f_q_hi V F) = true).
    { intros E. destruct (f_q_hi V F); [reflexivity|]. rewrite andb_true_r in R. exfalso.
      apply not_true_iff_false in R. apply R. apply existsb_exists. exists D. rewrite E. split; [assumption|reflexivity]. }
    apply orb_false_iff in U'. destruct U' as [U1 U2].
    unfold dim_faults, side_faults. cbn [app].
    assert (T : forall ty (fn : option (custom_fun V)), (ty = Custom -> is_some fn = true) -> ty <> Unknown -> (ty = Wall -> 0 <= reflect D < neq) ->
       match ty with Unset => true | _ => false end = false -> @type_fault ng ty (is_some fn) true (reflect D) neq = None).
    { intros ty fn T1 T2 T3 T4. destruct ty; cbn [type_fault]; try reflexivity; try congruence.
      - rewrite (T1 eq_refl). reflexivity.
      - replace (Z.leb 0 (reflect D) && Z.ltb (reflect D) neq)%bool with true by (specialize (T3 eq_refl); lia).
        cbn [negb]. rewrite andb_false_r. reflexivity. }
    rewrite (T (q_lo D) (f_q_lo V F)), (T (q_hi D) (f_q_hi V F)) by auto.
    destruct (on_lo D), (on_hi D); reflexivity. }
  congruence.
Qed.
End P.
