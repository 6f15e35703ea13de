(** PETSc frames: proofs. *)
From Coq Require Import Ascii String.
From Verif Require Import Base FormatModel FormatProofs AsciiProofs2 AsciiProofs3 PetscModel PetscSpec.
Open Scope Q_scope.

(** ** names *)
Lemma eqb_true a b : text_eqb a b = true <-> a = b.
Proof. unfold text_eqb. destruct (list_eq_dec ascii_dec a b); split; congruence. Qed.
Lemma eqb_refl a : text_eqb a a = true.
Proof. apply eqb_true. reflexivity. Qed.
Lemma eqb_neq a b : a <> b -> text_eqb a b = false.
Proof. intro H. destruct (text_eqb a b) eqn:E; [apply eqb_true in E; contradiction|reflexivity]. Qed.

Lemma cons_inj {A} (c : A) a b : c :: a = c :: b -> a = b.
Proof. congruence. Qed.
Lemma zfill4_head frame c x y : digit_val c = None -> zfill4 frame ++ x <> c :: y.
Proof.
  intros Hc E. pose proof (all_digits_pad 4 frame) as A. fold (zfill4 frame) in A.
  destruct (zfill4 frame) as [|d z] eqn:Z.
  - apply (f_equal (@length ascii)) in Z. unfold zfill4, pad in Z. rewrite app_length, repeat_length in Z. cbn [length] in Z. lia.
  - cbn in E. injection E as -> _. apply Forall_cons_iff in A. destruct A as ((v & A & _) & _). congruence.
Qed.
Lemma names_differ path prefix fmt m n :
  meta_name path prefix m <> q_name path prefix fmt n /\ meta_name path prefix m <> aux_name path prefix n /\
  q_name path prefix fmt m <> aux_name path prefix n.
Proof.
  unfold meta_name, q_name, aux_name. destruct (text_eqb fmt (lit "vtk")); repeat split; intro E; apply app_inv_head in E; apply cons_inj in E;
    apply app_inv_head in E; cbn [lit list_ascii_of_string app] in E; try discriminate.
  - symmetry in E. refine (zfill4_head _ _ _ _ _ E); reflexivity.
  - refine (zfill4_head _ _ _ _ _ E); reflexivity.
Qed.
Lemma meta_name_inj path prefix m n : (0 <= m)%Z -> (0 <= n)%Z -> meta_name path prefix m = meta_name path prefix n -> m = n.
Proof.
  intros Hm Hn E. unfold meta_name in E. apply app_inv_head in E. apply cons_inj in E. do 2 apply app_inv_head in E. exact (zfill4_inj m n Hm Hn E).
Qed.
Lemma aux_name_inj path prefix m n : (0 <= m)%Z -> (0 <= n)%Z -> aux_name path prefix m = aux_name path prefix n -> m = n.
Proof.
  intros Hm Hn E. unfold aux_name in E. apply app_inv_head in E. apply cons_inj in E. do 2 apply app_inv_head in E. exact (zfill4_inj m n Hm Hn E).
Qed.
Lemma q_name_inj path prefix f g m n : (0 <= m)%Z -> (0 <= n)%Z -> q_name path prefix f m = q_name path prefix g n -> m = n.
Proof.
  intros Hm Hn E. unfold q_name in E. destruct (text_eqb f _), (text_eqb g _); apply app_inv_head in E; apply cons_inj in E; apply app_inv_head in E.
  - apply app_inv_tail in E. exact (zfill4_inj m n Hm Hn E).
  - exfalso. cbn [lit list_ascii_of_string app] in E. refine (zfill4_head _ _ _ _ _ E); reflexivity.
  - exfalso. cbn [lit list_ascii_of_string app] in E. symmetry in E. refine (zfill4_head _ _ _ _ _ E); reflexivity.
  - apply app_inv_head in E. exact (zfill4_inj m n Hm Hn E).
Qed.


(** names under different prefixes *)
Definition no_dot (x : text) : Prop := ~ In c_dot x.
Lemma last_dot : forall s1 s2 x1 x2 : text, no_dot x1 -> no_dot x2 -> s1 ++ c_dot :: x1 = s2 ++ c_dot :: x2 -> s1 = s2 /\ x1 = x2.
Proof.
  induction s1 as [|c s1 IH]; intros [|d s2] x1 x2 H1 H2 E; cbn [app] in E.
  - split; [reflexivity|]. apply cons_inj in E. exact E.
  - exfalso. assert (E' : x1 = s2 ++ c_dot :: x2) by congruence. apply H1. rewrite E'. apply in_or_app. right. left. reflexivity.
  - exfalso. assert (E' : s1 ++ c_dot :: x1 = x2) by congruence. apply H2. rewrite <- E'. apply in_or_app. right. left. reflexivity.
  - assert (Ec : c = d) by congruence. subst d. apply cons_inj in E. destruct (IH s2 x1 x2 H1 H2 E) as (-> & ->). split; reflexivity.
Qed.
Lemma zfill4_no_dot m : no_dot (zfill4 m).
Proof. apply all_digits_not; [apply all_digits_pad|reflexivity]. Qed.
(** The name of a file: the part before the last dot, and what follows it *)
Inductive fkind := KMeta | KQ (fmt : text) | KAux.
Definition name_of (path prefix : text) (k : fkind) (f : Z) : text :=
  match k with KMeta => meta_name path prefix f | KQ fmt => q_name path prefix fmt f | KAux => aux_name path prefix f end.
Definition is_vtk (k : fkind) : bool := match k with KQ fmt => text_eqb fmt (lit "vtk") | _ => false end.
Definition before_dot (prefix : text) (k : fkind) (f : Z) : text :=
  match k with KMeta => prefix | KQ _ => if is_vtk k then prefix ++ zfill4 f else prefix | KAux => prefix ++ lit "_aux" end.
Definition after_dot (k : fkind) (f : Z) : text :=
  match k with KMeta => lit "pkl" ++ zfill4 f | KQ _ => if is_vtk k then lit "vtk" else lit "ptc" ++ zfill4 f | KAux => lit "ptc" ++ zfill4 f end.
Lemma name_of_parts path prefix k f : name_of path prefix k f = path ++ c_slash :: before_dot prefix k f ++ c_dot :: after_dot k f.
Proof.
  destruct k as [|fmt|]; cbn [name_of before_dot after_dot is_vtk]; unfold meta_name, q_name, aux_name;
    try destruct (text_eqb fmt (lit "vtk")); rewrite <- ?app_assoc; reflexivity.
Qed.
Lemma after_no_dot k f : no_dot (after_dot k f).
Proof.
  assert (K : forall (s : text), ~ In c_dot s -> no_dot (s ++ zfill4 f)).
  { intros s Hs H. apply in_app_iff in H. destruct H as [H|H]; [contradiction|]. exact (zfill4_no_dot f H). }
  destruct k as [|fmt|]; cbn [after_dot]; try destruct (is_vtk _); try apply K; cbv; intuition discriminate.
Qed.
Lemma names_apart path p1 p2 k1 k2 f1 f2 : (0 <= f1 < 10000)%Z -> (0 <= f2 < 10000)%Z ->
  name_of path p1 k1 f1 = name_of path p2 k2 f2 -> p1 = p2 \/ p1 = p2 ++ lit "_aux" \/ p2 = p1 ++ lit "_aux".
Proof.
  intros B1 B2. rewrite !name_of_parts. intro E. apply app_inv_head in E. apply cons_inj in E.
  destruct (last_dot _ _ _ _ (after_no_dot k1 f1) (after_no_dot k2 f2) E) as (S & X). clear E.
  destruct k1 as [|g1|], k2 as [|g2|]; cbn [before_dot after_dot] in *; try destruct (is_vtk (KQ g1)); try destruct (is_vtk (KQ g2));
    try (left; assumption); try (right; left; assumption); try (right; right; symmetry; assumption);
    try (exfalso; cbn [lit list_ascii_of_string app] in X; discriminate).
  - left. apply (f_equal (firstn (length p1))) in S as S'. pose proof (f_equal (@length ascii) S) as L. rewrite !app_length in L.
    assert (Z4 : forall f, (0 <= f < 10000)%Z -> length (zfill4 f) = 4%nat).
    { intros f Bf. rewrite zfill4_digits by exact Bf. reflexivity. }
    rewrite !Z4 in L by assumption. rewrite firstn_app, firstn_all, Nat.sub_diag in S'. replace (length p1) with (length p2) in S' by lia.
    rewrite firstn_app, firstn_all, Nat.sub_diag in S'. cbn [firstn] in S'. rewrite !app_nil_r in S'. exact S'.
  - left. apply app_inv_tail in S. exact S.
Qed.

(** ** operations *)
Section Data.
Context {D M : Type}.
Notation state := (@state D M).
Notation files := (@files D M).
Notation op := (@op D M).
Notation record := (@record D M).

Definition op_name (o : op) : text := match o with Truncate n _ => n | Append n _ => n end.
Definition truncates (n : text) (o : op) : Prop := exists k, o = Truncate n k.

Lemma set_file_same n f (fs : files) : set_file n f fs n = Some f.
Proof. unfold set_file. rewrite eqb_refl. reflexivity. Qed.
Lemma set_file_other n f (fs : files) m : m <> n -> set_file n f fs m = fs m.
Proof. intro H. unfold set_file. rewrite eqb_neq by exact H. reflexivity. Qed.
Lemma exec_other (fs : files) o n : op_name o <> n -> exec fs o n = fs n.
Proof.
  intro H. destruct o as [m k|m r]; cbn [exec op_name] in *; [apply set_file_other; congruence|].
  destruct (fs m) as [[k l]|]; [apply set_file_other; congruence|reflexivity].
Qed.
Lemma execs_other n : forall (os : list op) (fs : files), Forall (fun o => op_name o <> n) os -> execs os fs n = fs n.
Proof.
  unfold execs. induction os as [|o os IH]; intros fs H; cbn [fold_left]; [reflexivity|]. apply Forall_cons_iff in H.
  rewrite IH by tauto. apply exec_other. tauto.
Qed.
Lemma execs_app (a b : list op) (fs : files) : execs (a ++ b) fs = execs b (execs a fs).
Proof. unfold execs. apply fold_left_app. Qed.
Lemma execs_cons o (a : list op) (fs : files) : execs (o :: a) fs = execs a (exec fs o).
Proof. reflexivity. Qed.
(** Without being truncated a file stays absent *)
Lemma execs_absent n : forall (os : list op) (fs : files), Forall (fun o => ~ truncates n o) os -> fs n = None -> execs os fs n = None.
Proof.
  unfold execs. induction os as [|o os IH]; intros fs H N; cbn [fold_left]; [exact N|]. apply Forall_cons_iff in H. destruct H as (H & Hs).
  apply IH; [exact Hs|]. destruct o as [m k|m r]; cbn [exec].
  - rewrite set_file_other; [exact N|]. intros ->. apply H. exists k. reflexivity.
  - destruct (fs m) as [[k l]|] eqn:E; [|exact N]. rewrite set_file_other; [exact N|]. intros ->. congruence.
Qed.
(** The records appended to a file *)
Definition appended (n : text) (o : op) : list record := match o with Append m r => if text_eqb m n then [r] else [] | _ => [] end.
Lemma execs_appends n : forall (os : list op) (fs : files) k l, Forall (fun o => ~ truncates n o) os -> fs n = Some (k, l) ->
  execs os fs n = Some (k, l ++ flat_map (appended n) os).
Proof.
  unfold execs. induction os as [|o os IH]; intros fs k l H E; cbn [fold_left flat_map]; [rewrite app_nil_r; exact E|].
  apply Forall_cons_iff in H. destruct H as (H & Hs). rewrite app_assoc. apply IH; [exact Hs|].
  destruct o as [m k'|m r]; cbn [exec appended].
  - rewrite app_nil_r. rewrite set_file_other; [exact E|]. intros ->. apply H. exists k'. reflexivity.
  - destruct (text_eqb m n) eqn:T.
    + apply eqb_true in T. subst m. rewrite E. apply set_file_same.
    + rewrite app_nil_r. destruct (fs m) as [[k' l']|]; [|exact E]. rewrite set_file_other; [exact E|]. intros ->. rewrite eqb_refl in T. discriminate.
Qed.
(** The contents of a file that is truncated once *)
Lemma execs_once n k (a b : list op) (fs : files) : Forall (fun o => ~ truncates n o) b ->
  execs (a ++ Truncate n k :: b) fs n = Some (k, flat_map (appended n) b).
Proof.
  intro H. rewrite execs_app, execs_cons. rewrite (execs_appends n b _ k []); [reflexivity|exact H|]. apply set_file_same.
Qed.

(** ** what write does *)
Lemma view_states_ok qn an wp (l : list state) :
  (forall s, In s l -> shown wp s <> None) -> (an <> None -> forall s, In s l -> s_aux s <> None) ->
  exists os, view_states qn an wp l = (os, None) /\ Forall (fun o => forall n, ~ truncates n o) os
    /\ Forall (fun o => op_name o = qn \/ Some (op_name o) = an) os
    /\ (an <> Some qn -> flat_map (appended qn) os = map (fun s => RVec (match shown wp s with Some x => snd x | None => [] end)) l)
    /\ (forall a, an = Some a -> a <> qn -> flat_map (appended a) os = map (fun s => RVec (match s_aux s with Some x => snd x | None => [] end)) l).
Proof.
  induction l as [|s l IH]; intros H1 H2; cbn [view_states].
  - exists []. repeat split; constructor.
  - destruct (IH (fun x Hx => H1 x (or_intror Hx)) (fun Ha x Hx => H2 Ha x (or_intror Hx))) as (os & E & A & B & C & F).
    assert (S : exists v, (if wp then option_map snd (s_p s) else Some (s_q s)) = Some v /\ match shown wp s with Some x => snd x | None => [] end = v).
    { pose proof (H1 s (or_introl eq_refl)) as K. unfold shown in *. destruct wp; [|eexists; split; reflexivity].
      destruct (s_p s) as [[n v]|]; [eexists; split; reflexivity|congruence]. }
    destruct S as (v & S & S'). rewrite S. destruct an as [a|].
    + destruct (s_aux s) as [[n w]|] eqn:X; [|exfalso; exact (H2 ltac:(discriminate) s (or_introl eq_refl) X)].
      rewrite E. eexists. split; [reflexivity|]. split; [|split; [|split]].
      * constructor; [intros ? (? & ?); discriminate|]. constructor; [intros ? (? & ?); discriminate|exact A].
      * constructor; [left; reflexivity|]. constructor; [right; reflexivity|exact B].
      * intro N. cbn [flat_map appended map]. rewrite eqb_refl, (eqb_neq a qn) by congruence. cbn [app]. rewrite S', (C N). reflexivity.
      * intros a' Ea Na. injection Ea as <-. cbn [flat_map appended map]. rewrite eqb_refl, (eqb_neq qn a) by congruence. cbn [app].
        rewrite X. cbn [snd]. rewrite (F a eq_refl Na). reflexivity.
    + rewrite E. eexists. split; [reflexivity|]. split; [|split; [|split]].
      * constructor; [intros ? (? & ?); discriminate|exact A].
      * constructor; [left; reflexivity|exact B].
      * intro N. cbn [flat_map appended map]. rewrite eqb_refl. cbn [app]. rewrite S', (C N). reflexivity.
      * discriminate.
Qed.

Definition first_header (wp do_aux : bool) (fmt : text) (l : list state) (s0 : state) : header :=
  mkHeader (s_t s0) (match shown wp s0 with Some x => fst x | None => 0%Z end) (length l) (s_naux s0) (length (s_dims s0)) do_aux
    (s_problem s0) (s_map s0) fmt.
Definition with_aux (wa : bool) (s0 : state) : bool := (wa && negb (s_naux s0 =? 0)%Z)%bool.
Definition metas (wp do_aux : bool) (fmt : text) (l : list state) (s0 : state) : list record :=
  RHeader (first_header wp do_aux fmt l s0) :: map (fun s => RPatch (meta_of s)) l.
Definition no_clobber (fs : files) path prefix fmt frame (clobber do_aux : bool) : Prop :=
  clobber = true \/ Forall (fun n => fs n = None) (frame_files path prefix fmt frame do_aux).

Lemma write_ops_ok (fs : files) path prefix frame fmt clobber wa wp s0 r :
  let l := s0 :: r in let x := with_aux wa s0 in
  Forall (storable wp s0) l -> has_viewer fmt = true -> no_clobber fs path prefix fmt frame clobber x ->
  exists os, let mn := meta_name path prefix frame in let qn := q_name path prefix fmt frame in let an := aux_name path prefix frame in
  write_ops fs path prefix frame fmt clobber wa wp l =
    (Truncate mn Pickle :: map (Append mn) (metas wp x fmt l s0)
     ++ Truncate qn (Viewer (lower_case fmt)) :: (if x then [Truncate an (Viewer (lower_case fmt))] else []) ++ os, None)
  /\ Forall (fun o => forall n, ~ truncates n o) os
  /\ Forall (fun o => op_name o = qn \/ x = true /\ op_name o = an) os
  /\ flat_map (appended qn) os = map (fun s => RVec (match shown wp s with Some x => snd x | None => [] end)) l
  /\ (x = true -> flat_map (appended an) os = map (fun s => RVec (match s_aux s with Some x => snd x | None => [] end)) l).
Proof.
  cbv zeta. intros HS HV HC. destruct (names_differ path prefix fmt frame frame) as (N1 & N2 & N3).
  set (x := with_aux wa s0) in *. set (an := if x then Some (aux_name path prefix frame) else None).
  destruct (view_states_ok (q_name path prefix fmt frame) an wp (s0 :: r)) as (os & E & A & B & C & F).
  - intros s Hs. rewrite Forall_forall in HS. destruct (st_q _ _ _ (HS s Hs)) as (n & v & -> & _). discriminate.
  - intros Ha s Hs. rewrite Forall_forall in HS. destruct (st_aux _ _ _ (HS s Hs)) as (Hx & _).
    assert (Y : s_aux s0 <> None).
    { unfold an, x, with_aux, s_naux in Ha. destruct (s_aux s0) as [[? ?]|]; [discriminate|]. exfalso; apply Ha; destruct wa; reflexivity. }
    destruct (s_aux s), (s_aux s0); cbn in Hx; congruence.
  - exists os. split; [|split; [exact A|split; [|split]]].
    + unfold write_ops. fold (with_aux wa s0). fold x.
      assert (CC : (negb clobber && (match fs (meta_name path prefix frame) with Some _ => true | None => false end
         || match fs (q_name path prefix fmt frame) with Some _ => true | None => false end
         || x && match fs (aux_name path prefix frame) with Some _ => true | None => false end))%bool = false).
      { destruct HC as [->|HC]; [reflexivity|]. unfold frame_files in HC. apply Forall_cons_iff in HC. destruct HC as (H1 & HC).
        apply Forall_cons_iff in HC. destruct HC as (H2 & HC). rewrite H1, H2. cbn [orb].
        destruct x; cbn [andb]; [|rewrite Bool.andb_false_r; reflexivity]. apply Forall_cons_iff in HC. destruct HC as (-> & _). apply Bool.andb_false_r. }
      rewrite CC.
      assert (SH : (if wp then option_map fst (s_p s0) else Some (s_neqn s0)) = Some (match shown wp s0 with Some x => fst x | None => 0%Z end)).
      { apply Forall_inv in HS. destruct (st_q _ _ _ HS) as (n & v & K & _). rewrite K. unfold shown in K. destruct wp; [rewrite K; reflexivity|injection K as -> _; reflexivity]. }
      rewrite SH, HV. fold an. rewrite E. unfold metas, first_header. cbn [map]. rewrite map_map. reflexivity.
    + rewrite Forall_forall in *. intros o Ho. destruct (B o Ho) as [K|K]; [left; exact K|]. right. unfold an in K. destruct x; [|discriminate].
      split; [reflexivity|congruence].
    + apply C. unfold an. destruct x; congruence.
    + intro Hx. apply F; [unfold an; rewrite Hx; reflexivity|congruence].
Qed.

(** ** reading *)
Lemma delta_upper d : (0 < d_n d)%Z -> d_lower d + inject_Z (d_n d) * d_delta d == d_upper d.
Proof.
  intro H. unfold d_delta. assert (~ inject_Z (d_n d) == 0). { intro E. change 0 with (inject_Z 0) in E. rewrite inject_Z_injective in E. lia. }
  field. exact H0.
Qed.
Lemma read_dims_ok : forall ds, Forall (fun d => (0 < d_n d)%Z /\ d_lower d < d_upper d) ds ->
  exists ds', read_dims (length ds) (map d_name ds) (map d_lower ds) (map d_n ds) (map d_delta ds) = Ok ds'
  /\ Forall2 same_dim ds ds' /\ cells ds' = cells ds.
Proof.
  induction ds as [|d ds IH]; intro H; cbn [length map read_dims].
  - exists []. repeat split; constructor.
  - apply Forall_cons_iff in H. destruct H as ((H1 & H2) & H). destruct (IH H) as (ds' & E & F & C).
    pose proof (delta_upper d H1) as U.
    unfold dim_ok. cbn [d_n d_lower d_upper].
    replace ((0 <? d_n d)%Z) with true by (symmetry; apply Z.ltb_lt; exact H1).
    replace (qltb (d_lower d) (d_lower d + inject_Z (d_n d) * d_delta d)) with true
      by (symmetry; apply qltb_lt; rewrite U; exact H2).
    cbn [andb]. rewrite E. cbn [bind]. eexists. split; [reflexivity|]. split.
    + constructor; [|exact F]. repeat split. exact U.
    + cbn [cells fold_right d_n]. unfold cells in C. rewrite C. reflexivity.
Qed.
Section Reading.
Variable loadable : text -> bool.
Variable fresh : Z -> list Q.
Notation read := (@read D M loadable fresh).
Notation read_states := (@read_states D M fresh).

Definition aux_back (has : bool) (s s' : state) : Prop :=
  match s_aux s, s_aux s' with
  | Some (n, w), Some (n', w') => n' = n /\ w' = if has then w else fresh (n * cells (s_dims s))
  | None, None => True
  | _, _ => False
  end.
Lemma read_states_ok h wp s0 has : forall l,
  Forall (storable wp s0) l -> h_ndim h = length (s_dims s0) -> Some (h_neqn h) = option_map fst (shown wp s0) ->
  h_naux h = s_naux s0 -> h_t h = s_t s0 -> h_problem h = s_problem s0 -> h_map h = s_map s0 ->
  (has = true -> (0 < s_naux s0)%Z) ->
  exists l', read_states h (length l) (map (fun s => RPatch (meta_of s)) l)
    (map (fun s => RVec (match shown wp s with Some x => snd x | None => [] end)) l)
    (if has then Some (map (fun s => RVec (match s_aux s with Some x => snd x | None => [] end)) l) else None) = Ok l'
  /\ Forall2 (returned wp s0) l l' /\ Forall2 (aux_back has) l l'.
Proof.
  intros l HS Hd Hn Ha Ht Hp Hm Hh. induction l as [|s l IH]; cbn [length map read_states].
  - exists []. destruct has; repeat split; constructor.
  - apply Forall_cons_iff in HS. destruct HS as (S & HS). destruct (IH HS) as (l' & E & R & B). clear IH.
    cbn [next_dict bind fst snd].
    change (m_names (meta_of s)) with (map d_name (s_dims s)). change (m_lower (meta_of s)) with (map d_lower (s_dims s)).
    change (m_n (meta_of s)) with (map d_n (s_dims s)). change (m_delta (meta_of s)) with (map d_delta (s_dims s)).
    change (m_level (meta_of s)) with (s_level s).
    destruct (read_dims_ok (s_dims s) (st_dims _ _ _ S)) as (ds' & E1 & F1 & C1).
    rewrite Hd, <- (st_ndim _ _ _ S), E1. cbn [bind].
    destruct (st_q _ _ _ S) as (n & v & Sh & Sn & Lv). rewrite Sh. cbn [snd next_vec].
    rewrite <- Hn in Sn. injection Sn as Sn. rewrite Sn, C1. replace ((Z.of_nat (length v) =? n * cells (s_dims s))%Z) with true by (symmetry; apply Z.eqb_eq; exact Lv).
    cbn [bind]. destruct (st_aux _ _ _ S) as (Ax & Aw).
    assert (NA : h_naux h = s_naux s). { rewrite Ha. unfold s_naux. destruct (s_aux s) as [[? ?]|], (s_aux s0) as [[? ?]|]; cbn in Ax; congruence. }
    destruct has.
    + assert (Hx : (0 < s_naux s)%Z) by (rewrite <- NA, Ha; apply Hh; reflexivity).
      unfold s_naux in Hx. destruct (s_aux s) as [[na w]|] eqn:X; [|lia]. destruct (Aw na w eq_refl) as (Pn & Lw).
      assert (NA' : h_naux h = na) by (rewrite NA; unfold s_naux; rewrite X; reflexivity).
      rewrite NA'. replace ((0 <? na)%Z) with true by (symmetry; apply Z.ltb_lt; exact Pn). cbn [snd next_vec bind].
      replace ((Z.of_nat (length w) =? na * cells (s_dims s))%Z) with true by (symmetry; apply Z.eqb_eq; exact Lw). cbn [bind fst snd].
      cbn [app] in E. rewrite E. cbn [bind]. eexists. split; [reflexivity|]. split.
      * constructor; [|exact R]. constructor; cbn; try assumption; try reflexivity.
      * constructor; [|exact B]. unfold aux_back. rewrite X. cbn. split; reflexivity.
    + cbn [bind fst snd]. rewrite E. cbn [bind]. eexists. split; [reflexivity|]. split.
      * constructor; [|exact R]. constructor; cbn; try assumption; try reflexivity.
      * constructor; [|exact B]. unfold aux_back. rewrite NA. unfold s_naux. destruct (s_aux s) as [[na w]|] eqn:X; cbn [s_aux].
        -- destruct (Aw na w eq_refl) as (Pn & Lw). replace ((0 <? na)%Z) with true by (symmetry; apply Z.ltb_lt; exact Pn). split; reflexivity.
        -- cbn. exact I.
Qed.

(** Longer files: a successful reading stays the same *)
Lemma read_states_longer h : forall n ms qs auxs l m' q' a', read_states h n ms qs auxs = Ok l ->
  read_states h n (ms ++ m') (qs ++ q') (option_map (fun x => x ++ a') auxs) = Ok l.
Proof.
  induction n as [|n IH]; intros ms qs auxs l m' q' a' H; cbn [read_states] in *; [exact H|].
  destruct ms as [|r ms]; [discriminate|]. cbn [next_dict bind fst snd app] in *. destruct r as [?|m|?]; try discriminate.
  destruct (read_dims _ _ _ _ _) as [ds|e]; cbn [bind] in *; [|discriminate].
  destruct qs as [|[?|?|v] qs]; try discriminate. cbn [next_vec app] in *.
  destruct (_ =? _)%Z; cbn [bind fst snd] in *; [|discriminate].
  destruct auxs as [auxs|]; cbn [option_map] in *.
  - destruct (0 <? h_naux h)%Z; [|discriminate]. destruct auxs as [|[?|?|w] auxs]; try discriminate. cbn [next_vec app] in *.
    destruct (_ =? _)%Z; cbn [bind fst snd] in *; [|discriminate].
    destruct (PetscModel.read_states fresh h n ms qs (Some auxs)) as [ss|e] eqn:E; cbn [bind] in H; [|discriminate].
    pose proof (IH _ _ _ _ m' q' a' E) as E'. cbn [option_map] in E'. rewrite E'. exact H.
  - cbn [bind fst snd] in *. destruct (PetscModel.read_states fresh h n ms qs None) as [ss|e] eqn:E; cbn [bind] in H; [|discriminate].
    pose proof (IH _ _ _ _ m' q' a' E) as E'. cbn [option_map] in E'. rewrite E'. exact H.
Qed.
Lemma read_states_empty h n ms auxs : exists e, read_states h (S n) ms [] auxs = Err e.
Proof.
  cbn [PetscModel.read_states]. destruct ms as [|[?|m|?] ms]; cbn [next_dict bind fst snd]; try (eexists; reflexivity).
  destruct (read_dims _ _ _ _ _); cbn [bind next_vec]; eexists; reflexivity.
Qed.
End Reading.
End Data.
