(** Proofs about HDF5 frames. *)
From Coq Require Import Ascii String Permutation Sorting.Sorted.
From Verif Require Import Base FormatModel FormatProofs HdfModel HdfSpec.
Open Scope Q_scope.

Lemma text_eqb_true a b : text_eqb a b = true <-> a = b.
Proof. unfold text_eqb. destruct (list_eq_dec ascii_dec a b); split; congruence. Qed.
Lemma text_eqb_refl a : text_eqb a a = true.
Proof. apply text_eqb_true. reflexivity. Qed.

(** ** The order of names *)
Lemma code_inj x y : N_of_ascii x = N_of_ascii y -> x = y.
Proof. intro H. rewrite <- (ascii_N_embedding x), <- (ascii_N_embedding y), H. reflexivity. Qed.
Lemma text_ltb_irrefl a : text_ltb a a = false.
Proof. induction a as [|x a IH]; [reflexivity|]. cbn [text_ltb]. rewrite N.ltb_irrefl. exact IH. Qed.
Lemma text_ltb_trans : forall a b c, text_ltb a b = true -> text_ltb b c = true -> text_ltb a c = true.
Proof.
  induction a as [|x a IH]; intros b c H1 H2.
  - destruct b as [|y b]; [discriminate H1|]. destruct c as [|z c]; [discriminate H2|]. reflexivity.
  - destruct b as [|y b]; [discriminate H1|]. destruct c as [|z c]; [discriminate H2|].
    cbn [text_ltb] in *.
    destruct (N.ltb_spec (N_of_ascii x) (N_of_ascii y)) as [Hxy|Hxy].
    + destruct (N.ltb_spec (N_of_ascii y) (N_of_ascii z)) as [Hyz|Hyz].
      * replace (N_of_ascii x <? N_of_ascii z)%N with true; [reflexivity|]. symmetry. apply N.ltb_lt. lia.
      * destruct (N.ltb_spec (N_of_ascii z) (N_of_ascii y)) as [Hzy|Hzy]; [discriminate H2|].
        replace (N_of_ascii x <? N_of_ascii z)%N with true; [reflexivity|]. symmetry. apply N.ltb_lt. lia.
    + destruct (N.ltb_spec (N_of_ascii y) (N_of_ascii x)) as [Hyx|Hyx]; [discriminate H1|].
      destruct (N.ltb_spec (N_of_ascii y) (N_of_ascii z)) as [Hyz|Hyz].
      * replace (N_of_ascii x <? N_of_ascii z)%N with true; [reflexivity|]. symmetry. apply N.ltb_lt. lia.
      * destruct (N.ltb_spec (N_of_ascii z) (N_of_ascii y)) as [Hzy|Hzy]; [discriminate H2|].
        replace (N_of_ascii x <? N_of_ascii z)%N with false by (symmetry; apply N.ltb_ge; lia).
        replace (N_of_ascii z <? N_of_ascii x)%N with false by (symmetry; apply N.ltb_ge; lia).
        exact (IH b c H1 H2).
Qed.
Lemma text_ltb_total : forall a b, a <> b -> text_ltb a b = true \/ text_ltb b a = true.
Proof.
  induction a as [|x a IH]; intros b H.
  - destruct b; [congruence|]. left. reflexivity.
  - destruct b as [|y b]; [right; reflexivity|]. cbn [text_ltb].
    destruct (N.ltb_spec (N_of_ascii x) (N_of_ascii y)) as [Hxy|Hxy]; [left; reflexivity|].
    destruct (N.ltb_spec (N_of_ascii y) (N_of_ascii x)) as [Hyx|Hyx]; [right; reflexivity|].
    assert (x = y) by (apply code_inj; lia). subst y. apply IH. congruence.
Qed.

(** ** Groups in the file *)
Definition names_sorted (f : file) : Prop := StronglySorted (fun a b => text_ltb (fst a) (fst b) = true) f.

Lemma add_group_spec name g : forall f, ~ In name (map fst f) -> names_sorted f ->
  exists f', add_group name g f = Ok f' /\ Permutation ((name, g) :: f) f' /\ names_sorted f'.
Proof.
  induction f as [|[n g'] f IH]; intros HN HS.
  - exists [(name, g)]. split; [reflexivity|]. split; [apply Permutation_refl|]. repeat constructor.
  - cbn [add_group]. apply StronglySorted_inv in HS. destruct HS as (HS & HF).
    assert (N1 : name <> n) by (intro E; apply HN; left; symmetry; exact E).
    assert (N2 : ~ In name (map fst f)) by (intro E; apply HN; right; exact E).
    destruct (text_ltb name n) eqn:E1.
    + exists ((name, g) :: (n, g') :: f). split; [reflexivity|]. split; [apply Permutation_refl|].
      constructor; [constructor; assumption|]. constructor; [exact E1|].
      rewrite Forall_forall in *. intros x Hx. exact (text_ltb_trans _ _ _ E1 (HF x Hx)).
    + destruct (text_ltb_total name n N1) as [E2|E2]; [congruence|]. rewrite E2.
      destruct (IH N2 HS) as (f' & Ef & HP & HS'). rewrite Ef. cbn [bind].
      exists ((n, g') :: f'). split; [reflexivity|]. split.
      * rewrite <- HP. apply perm_swap.
      * constructor; [exact HS'|]. rewrite Forall_forall in *. intros x Hx.
        apply (Permutation_in _ (Permutation_sym HP)) in Hx. destruct Hx as [<-|Hx]; [exact E2|exact (HF x Hx)].
Qed.
Lemma add_group_taken name g : forall f, In name (map fst f) -> names_sorted f -> add_group name g f = Err GroupExists.
Proof.
  induction f as [|[n g'] f IH]; intros HI HS; [destruct HI|].
  apply StronglySorted_inv in HS. destruct HS as (HS & HF). cbn [add_group].
  destruct HI as [E|HI].
  - cbn in E. subst n. rewrite !text_ltb_irrefl. reflexivity.
  - apply in_map_iff in HI. destruct HI as ([n2 g2] & E & HI). cbn in E. subst n2.
    rewrite Forall_forall in HF. pose proof (HF _ HI) as L. cbn in L.
    assert (text_ltb name n = false).
    { apply Bool.not_true_iff_false. intro K. pose proof (text_ltb_trans _ _ _ K L) as C. rewrite text_ltb_irrefl in C. discriminate. }
    rewrite H, L. rewrite IH; [reflexivity| |exact HS]. apply in_map_iff. exists (name, g2). split; [reflexivity|exact HI].
Qed.

Definition stored (wa : bool) (s : state) : group :=
  mkGroup (set_attrs (attrs_of s))
    ((lit "q", s_q s) ::
     match s_aux s with
     | Some a => if (wa && (0 <? num_aux s)%Z)%bool then [(lit "aux", a)] else []
     | None => []
     end).
Lemma group_of_stored wa s : group_of wa false s = Ok (stored wa s).
Proof. reflexivity. Qed.

Lemma write_states_spec wa : forall l f, NoDup (map group_name l) ->
  (forall n, In n (map fst f) -> ~ In n (map group_name l)) -> names_sorted f ->
  exists f', write_states wa false l f = Ok f' /\
    Permutation (map (fun s => (group_name s, stored wa s)) l ++ f) f' /\ names_sorted f'.
Proof.
  induction l as [|s l IH]; intros f ND HD HS.
  - exists f. split; [reflexivity|]. split; [apply Permutation_refl|exact HS].
  - cbn [write_states]. rewrite group_of_stored. cbn [bind]. inversion ND as [|? ? N1 N2]; subst.
    destruct (add_group_spec (group_name s) (stored wa s) f) as (f1 & E1 & P1 & S1); [|exact HS|].
    { intro K. apply (HD _ K). left. reflexivity. }
    rewrite E1. cbn [bind].
    destruct (IH f1 N2) as (f' & E & P & S'); [|exact S1|].
    { intros n Hn K. apply (Permutation_in _ (Permutation_map fst (Permutation_sym P1))) in Hn. cbn in Hn.
      destruct Hn as [<-|Hn]; [exact (N1 K)|]. apply (HD n Hn). right. exact K. }
    exists f'. split; [exact E|]. split; [|exact S']. rewrite <- P. cbn [map app].
    rewrite <- P1. apply Permutation_middle.
Qed.
Lemma write_states_taken wa : forall l f, ~ NoDup (map group_name l) ->
  (forall n, In n (map fst f) -> ~ In n (map group_name l)) -> names_sorted f ->
  write_states wa false l f = Err GroupExists.
Proof.
  induction l as [|s l IH]; intros f ND HD HS; [exfalso; apply ND; constructor|].
  cbn [write_states]. rewrite group_of_stored. cbn [bind].
  destruct (add_group_spec (group_name s) (stored wa s) f) as (f1 & E1 & P1 & S1); [|exact HS|].
  { intro K. apply (HD _ K). left. reflexivity. }
  rewrite E1. cbn [bind].
  destruct (in_dec (list_eq_dec ascii_dec) (group_name s) (map group_name l)) as [HI|HI].
  - assert (K : forall f2, In (group_name s) (map fst f2) -> names_sorted f2 -> In (group_name s) (map group_name l) ->
                  write_states wa false l f2 = Err GroupExists).
    { clear. induction l as [|t l IHl]; intros f2 H1 H2 H3; [destruct H3|].
      cbn [write_states]. rewrite group_of_stored. cbn [bind].
      destruct (in_dec (list_eq_dec ascii_dec) (group_name t) (map fst f2)) as [Ht|Ht].
      - rewrite (add_group_taken _ _ _ Ht H2). reflexivity.
      - destruct (add_group_spec (group_name t) (stored wa t) f2 Ht H2) as (f3 & E3 & P3 & S3). rewrite E3. cbn [bind].
        apply IHl; [|exact S3|].
        + apply (Permutation_in _ (Permutation_map fst P3)). right. exact H1.
        + destruct H3 as [E|H3]; [|exact H3]. exfalso. apply Ht. rewrite E. exact H1. }
    apply K; [|exact S1|exact HI]. apply (Permutation_in _ (Permutation_map fst P1)). left. reflexivity.
  - apply IH; [|  |exact S1].
    + intro K. apply ND. constructor; assumption.
    + intros n Hn K. apply (Permutation_in _ (Permutation_map fst (Permutation_sym P1))) in Hn. cbn in Hn.
      destruct Hn as [<-|Hn]; [exact (HI K)|]. apply (HD n Hn). right. exact K.
Qed.

(** ** Attributes *)
Lemma assoc_in {A} k v (l : list (text * A)) : NoDup (map fst l) -> In (k, v) l -> assoc k l = Some v.
Proof.
  induction l as [|[k' v'] l IH]; intros ND HI; [destruct HI|]. cbn [assoc]. inversion ND as [|? ? N1 N2]; subst.
  destruct HI as [E|HI].
  - injection E as -> ->. rewrite text_eqb_refl. reflexivity.
  - destruct (text_eqb k k') eqn:E; [|exact (IH N2 HI)]. apply text_eqb_true in E. subst k'.
    exfalso. apply N1. apply in_map_iff. exists (k, v). split; [reflexivity|exact HI].
Qed.
Lemma assoc_out {A} k (l : list (text * A)) : ~ In k (map fst l) -> assoc k l = None.
Proof.
  induction l as [|[k' v'] l IH]; intro H; [reflexivity|]. cbn [assoc].
  destruct (text_eqb k k') eqn:E.
  - apply text_eqb_true in E. exfalso. apply H. left. symmetry. exact E.
  - apply IH. intro K. apply H. right. exact K.
Qed.

Lemma last_dot (a b c d : text) : ~ In c_dot b -> ~ In c_dot d -> a ++ c_dot :: b = c ++ c_dot :: d -> a = c /\ b = d.
Proof.
  revert c. induction a as [|x a IH]; intros c Hb Hd E.
  - destruct c as [|y c]; cbn in E.
    + injection E as E. split; [reflexivity|exact E].
    + injection E as _ E. exfalso. apply Hb. rewrite E. apply in_or_app. right. left. reflexivity.
  - destruct c as [|y c]; cbn in E.
    + injection E as _ E. exfalso. apply Hd. rewrite <- E. apply in_or_app. right. left. reflexivity.
    + injection E as -> E. destruct (IH c Hb Hd E) as (-> & ->). split; reflexivity.
Qed.
Definition dotless (s : text) : bool := forallb (fun c => negb (Ascii.eqb c c_dot)) s.
Lemma dotless_in s : dotless s = true -> ~ In c_dot s.
Proof.
  intros H K. unfold dotless in H. rewrite forallb_forall in H. specialize (H _ K). rewrite Ascii.eqb_refl in H. discriminate.
Qed.
Lemma key_dotless n a : ~ dotless (key n a) = true.
Proof. intro H. apply (dotless_in _ H). unfold key. apply in_or_app. right. left. reflexivity. Qed.
Lemma key_inj n a m b : dotless (lit a) = true -> dotless (lit b) = true -> key n a = key m b -> n = m /\ lit a = lit b.
Proof. intros Ha Hb E. apply last_dot in E; [exact E|apply dotless_in; exact Ha|apply dotless_in; exact Hb]. Qed.

Definition dim_keys : list string := ["num_cells"; "lower"; "delta"; "upper"; "units"]%string.
Lemma dim_attrs_keys d k : In k (map fst (dim_attrs d)) -> exists a, In a dim_keys /\ k = key (d_name d) a.
Proof.
  unfold dim_attrs. rewrite map_app, in_app_iff. intros [H|H].
  - cbn in H. destruct H as [<-|[<-|[<-|[<-|[]]]]]; eexists; (split; [|reflexivity]); unfold dim_keys; cbn; tauto.
  - destruct (d_units d); [|destruct H]. destruct H as [<-|[]]. eexists. split; [|reflexivity]. unfold dim_keys; cbn; tauto.
Qed.
Lemma dim_keys_dotless a : In a dim_keys -> dotless (lit a) = true.
Proof. unfold dim_keys. cbn [In]. intros [<-|[<-|[<-|[<-|[<-|[]]]]]]; reflexivity. Qed.
Lemma dim_attrs_nodup d : NoDup (map fst (dim_attrs d)).
Proof.
  assert (K : forall l, NoDup (map lit l) -> Forall (fun a => dotless (lit a) = true) l -> NoDup (map (key (d_name d)) l)).
  { induction l as [|a l IH]; intros H1 H2; [constructor|]. cbn [map] in H1. apply NoDup_cons_iff in H1. destruct H1 as (H0 & H1).
    apply Forall_cons_iff in H2. destruct H2 as (H2 & H3).
    cbn [map]. constructor; [|apply IH; assumption]. intro HI. apply in_map_iff in HI. destruct HI as (b & E & Hb).
    rewrite Forall_forall in H3. apply key_inj in E; [|exact (H3 b Hb)|exact H2]. destruct E as (_ & E).
    apply H0. rewrite <- E. apply in_map. exact Hb. }
  unfold dim_attrs. destruct (d_units d).
  - apply (K ["num_cells"; "lower"; "delta"; "upper"; "units"]%string).
    + cbn. repeat constructor; cbn; intuition discriminate.
    + repeat constructor.
  - rewrite app_nil_r. apply (K ["num_cells"; "lower"; "delta"; "upper"]%string).
    + cbn. repeat constructor; cbn; intuition discriminate.
    + repeat constructor.
Qed.
Lemma dims_attrs_nodup : forall ds, NoDup (map d_name ds) -> NoDup (map fst (flat_map dim_attrs ds)).
Proof.
  induction ds as [|d ds IH]; intro H; [constructor|]. inversion H as [|? ? N1 N2]; subst.
  cbn [flat_map]. rewrite map_app.
  assert (K : forall (l1 l2 : list text), NoDup l1 -> NoDup l2 -> (forall x, In x l1 -> ~ In x l2) -> NoDup (l1 ++ l2)).
  { clear. induction l1 as [|a l1 IH]; intros l2 H1 H2 H3; [exact H2|]. inversion H1; subst. cbn. constructor.
    - rewrite in_app_iff. intros [K|K]; [contradiction|]. exact (H3 a (or_introl eq_refl) K).
    - apply IH; try assumption. intros x Hx. apply H3. right. exact Hx. }
  apply K; [apply dim_attrs_nodup|exact (IH N2)|].
  intros k Hk HI. apply dim_attrs_keys in Hk. destruct Hk as (a & Ha & ->).
  rewrite in_map_iff in HI. destruct HI as ([k' v] & E & HI). cbn in E. subst k'.
  apply in_flat_map in HI. destruct HI as (d' & Hd' & HI).
  apply (in_map fst) in HI. apply dim_attrs_keys in HI. destruct HI as (b & Hb & E). cbn in E.
  apply key_inj in E; [|exact (dim_keys_dotless _ Ha)|exact (dim_keys_dotless _ Hb)]. destruct E as (E & _).
  apply N1. rewrite E. apply in_map. exact Hd'.
Qed.

Lemma nodup_app (l1 l2 : list text) : NoDup l1 -> NoDup l2 -> (forall x, In x l1 -> ~ In x l2) -> NoDup (l1 ++ l2).
Proof.
  induction l1 as [|a l1 IH]; intros H1 H2 H3; [exact H2|]. apply NoDup_cons_iff in H1. destruct H1 as (N1 & N2). cbn. constructor.
  - rewrite in_app_iff. intros [K|K]; [contradiction|]. exact (H3 a (or_introl eq_refl) K).
  - apply IH; try assumption. intros x Hx. apply H3. right. exact Hx.
Qed.
Lemma dims_attrs_dot k ds : In k (map fst (flat_map dim_attrs ds)) -> dotless k = false.
Proof.
  intro H. apply in_map_iff in H. destruct H as ([k' v] & E & H). cbn in E. subst k'.
  apply in_flat_map in H. destruct H as (d & _ & H). apply (in_map fst) in H. apply dim_attrs_keys in H.
  destruct H as (a & _ & E). cbn in E. subst k. apply Bool.not_true_iff_false. apply key_dotless.
Qed.
Definition head_attrs (s : state) : list (text * attr) :=
  [(lit "t", ANum (s_t s)); (lit "num_eqn", AInt (rows (s_q s))); (lit "num_aux", AInt (num_aux s))]
  ++ option_attr "patch_index" (p_index (s_patch s)) ++ option_attr "level" (p_level (s_patch s))
  ++ [(lit "dimensions", ANames (map d_name (p_dims (s_patch s))))].
Lemma attrs_of_head s : attrs_of s = head_attrs s ++ flat_map dim_attrs (p_dims (s_patch s)).
Proof. unfold attrs_of, head_attrs. rewrite <- !app_assoc. reflexivity. Qed.
Lemma head_attrs_nodup s : NoDup (map fst (head_attrs s)).
Proof.
  unfold head_attrs. destruct (p_index (s_patch s)), (p_level (s_patch s)); cbn [option_attr app map fst];
    repeat constructor; cbn; intuition discriminate.
Qed.
Lemma head_attrs_dotless s k : In k (map fst (head_attrs s)) -> dotless k = true.
Proof.
  unfold head_attrs. destruct (p_index (s_patch s)), (p_level (s_patch s)); cbn [option_attr app map fst In];
    intuition (subst; reflexivity).
Qed.
Lemma attrs_nodup s : NoDup (map d_name (p_dims (s_patch s))) -> NoDup (map fst (set_attrs (attrs_of s))).
Proof.
  intro H. unfold set_attrs. rewrite map_rev. apply NoDup_rev. rewrite attrs_of_head, map_app.
  apply nodup_app; [apply head_attrs_nodup|apply dims_attrs_nodup; exact H|].
  intros k H1 H2. apply head_attrs_dotless in H1. apply dims_attrs_dot in H2. congruence.
Qed.

Section group.
Variable wa ra : bool.
Variable s : state.
Hypothesis St : storable s.

Lemma find_attr k v : In (k, v) (attrs_of s) -> assoc k (g_attrs (stored wa s)) = Some v.
Proof.
  intro H. apply assoc_in; [exact (attrs_nodup s (st_names s St))|]. unfold stored, set_attrs. cbn [g_attrs].
  apply in_rev in H. exact H.
Qed.
Lemma find_head k v : In (k, v) (head_attrs s) -> assoc k (g_attrs (stored wa s)) = Some v.
Proof. intro H. apply find_attr. rewrite attrs_of_head. apply in_or_app. left. exact H. Qed.
Lemma find_dim d k v : In d (p_dims (s_patch s)) -> In (k, v) (dim_attrs d) -> assoc k (g_attrs (stored wa s)) = Some v.
Proof.
  intros Hd H. apply find_attr. rewrite attrs_of_head. apply in_or_app. right. apply in_flat_map. exists d. split; assumption.
Qed.
Lemma no_units d : In d (p_dims (s_patch s)) -> d_units d = None -> assoc (key (d_name d) "units") (g_attrs (stored wa s)) = None.
Proof.
  intros Hd Hu. apply assoc_out. unfold stored, set_attrs. cbn [g_attrs]. rewrite map_rev. intro H. apply in_rev in H.
  rewrite attrs_of_head, map_app in H. apply in_app_or in H. destruct H as [H|H].
  - apply head_attrs_dotless in H. exact (key_dotless _ _ H).
  - apply in_map_iff in H. destruct H as ([k v] & E & H). cbn in E. subst k.
    apply in_flat_map in H. destruct H as (d' & Hd' & H). pose proof (in_map fst _ _ H) as K. cbn [fst] in K.
    apply dim_attrs_keys in K. destruct K as (a & Ha & E).
    apply key_inj in E; [|reflexivity|exact (dim_keys_dotless _ Ha)]. destruct E as (E & _).
    assert (d' = d).
    { pose proof (st_names s St) as ND. revert Hd Hd' ND E. clear. generalize (p_dims (s_patch s)). intro l.
      induction l as [|x l IH]; intros H1 H2 ND E; [destruct H1|]. cbn [map] in ND. apply NoDup_cons_iff in ND. destruct ND as (N1 & N2).
      destruct H1 as [->|H1], H2 as [H2|H2].
      - symmetry. exact H2.
      - exfalso. apply N1. rewrite E. apply in_map. exact H2.
      - subst x. exfalso. apply N1. rewrite <- E. apply in_map. exact H1.
      - exact (IH H1 H2 N2 E). }
    subst d'. unfold dim_attrs in H. rewrite Hu, app_nil_r in H. cbn [In] in H.
    assert (KI : forall a, dotless (lit a) = true -> lit a <> lit "units" -> key (d_name d) a <> key (d_name d) "units").
    { intros b Hb N E2. apply key_inj in E2; [|exact Hb|reflexivity]. apply N. apply E2. }
    destruct H as [H|[H|[H|[H|[]]]]]; injection H as H _; revert H; apply KI; (reflexivity || discriminate).
Qed.

Lemma read_dim_back d : In d (p_dims (s_patch s)) -> read_dim (stored wa s) (d_name d) = Ok d.
Proof.
  intro Hd. pose proof (st_dims s St) as HD. rewrite Forall_forall in HD. destruct (HD d Hd) as (Hn & Hl & Hu).
  unfold read_dim, num_attr, int_attr.
  rewrite (find_dim d (key (d_name d) "lower") (ANum (d_lower d)) Hd) by (unfold dim_attrs; apply in_or_app; left; cbn [In]; tauto).
  cbn [bind].
  rewrite (find_dim d (key (d_name d) "upper") (ANum (d_upper d)) Hd) by (unfold dim_attrs; apply in_or_app; left; cbn [In]; tauto).
  cbn [bind].
  rewrite (find_dim d (key (d_name d) "num_cells") (AInt (d_n d)) Hd) by (unfold dim_attrs; apply in_or_app; left; cbn [In]; tauto).
  cbn [bind]. unfold new_dim.
  replace (0 <? d_n d)%Z with true by (symmetry; apply Z.ltb_lt; exact Hn).
  replace (qltb (d_lower d) (d_upper d)) with true by (symmetry; apply qltb_lt; exact Hl).
  cbn [andb bind d_lower d_upper d_n d_name].
  destruct (d_units d) as [u|] eqn:Eu.
  - rewrite (find_dim d (key (d_name d) "units") (AText u) Hd).
    + destruct u as [|c u]; [destruct (Hu eq_refl)|]. destruct d as [x1 x2 x3 x4 x5]; cbn in Eu |- *; rewrite Eu; reflexivity.
    + unfold dim_attrs. rewrite Eu. apply in_or_app. right. left. reflexivity.
  - rewrite (no_units d Hd Eu). destruct d as [x1 x2 x3 x4 x5]; cbn in Eu |- *; rewrite Eu; reflexivity.
Qed.
Lemma read_dims_back : forall l, (forall d, In d l -> In d (p_dims (s_patch s))) ->
  read_dims (stored wa s) (map d_name l) = Ok l.
Proof.
  induction l as [|d l IH]; intro H; [reflexivity|]. cbn [map read_dims].
  rewrite (read_dim_back d) by (apply H; left; reflexivity). cbn [bind].
  rewrite IH by (intros x Hx; apply H; right; exact Hx). reflexivity.
Qed.
Lemma reshaped_same a : reshaped a (a_shape a) = Ok a.
Proof. unfold reshaped. rewrite Z.eqb_refl. destruct a; reflexivity. Qed.
Lemma new_array_fits a : fits_grid s a -> new_array (rows a) (p_dims (s_patch s)) = Some (mkArray (a_shape a) None).
Proof.
  intros (n & Hn & E). unfold new_array, rows. rewrite E. cbn [hd].
  replace (n =? 0)%Z with false by (symmetry; apply Z.eqb_neq; exact Hn). reflexivity.
Qed.

Lemma read_group_back : read_group ra (stored wa s) = Ok (back (wa && ra) s).
Proof.
  unfold read_group.
  assert (HI : exists i, p_index (s_patch s) = Some i) by (destruct (p_index (s_patch s)) as [i|] eqn:E; [exists i; reflexivity|destruct (st_index s St E)]).
  assert (HL : exists i, p_level (s_patch s) = Some i) by (destruct (p_level (s_patch s)) as [i|] eqn:E; [exists i; reflexivity|destruct (st_level s St E)]).
  destruct HI as (i & Ei). destruct HL as (v & Ev).
  assert (HH : forall k w, In (k, w) ([(lit "t", ANum (s_t s)); (lit "num_eqn", AInt (rows (s_q s))); (lit "num_aux", AInt (num_aux s));
     (lit "patch_index", AInt i); (lit "level", AInt v); (lit "dimensions", ANames (map d_name (p_dims (s_patch s))))]) ->
     assoc k (g_attrs (stored wa s)) = Some w).
  { intros k w H. apply find_head. unfold head_attrs. rewrite Ei, Ev. exact H. }
  rewrite (HH (lit "dimensions") (ANames (map d_name (p_dims (s_patch s))))) by (cbn [In]; tauto).
  rewrite (read_dims_back (p_dims (s_patch s))) by (intros d H; exact H). cbn [bind].
  unfold num_attr, int_attr.
  rewrite (HH (lit "t") (ANum (s_t s))) by (cbn [In]; tauto). cbn [bind].
  rewrite (HH (lit "num_eqn") (AInt (rows (s_q s)))) by (cbn [In]; tauto). cbn [bind].
  rewrite (HH (lit "patch_index") (AInt i)) by (cbn [In]; tauto). cbn [bind].
  rewrite (HH (lit "level") (AInt v)) by (cbn [In]; tauto). cbn [bind].
  rewrite (HH (lit "num_aux") (AInt (num_aux s))) by (cbn [In]; tauto). cbn [bind].
  rewrite (new_array_fits (s_q s) (st_q s St)).
  assert (EP : mkPatch (Some i) (Some v) (p_dims (s_patch s)) = s_patch s) by (rewrite <- Ei, <- Ev; destruct (s_patch s); reflexivity).
  change (assoc (lit "q") (g_sets (stored wa s))) with (Some (s_q s)). cbn [a_shape].
  rewrite reshaped_same. cbn [bind]. rewrite EP. unfold back.
  pose proof (st_aux s St) as HA. unfold num_aux, stored. cbn [g_sets].
  destruct (s_aux s) as [a|] eqn:Ea.
  - destruct HA as (HF & HP). rewrite (new_array_fits a HF). unfold num_aux. rewrite Ea.
    replace (0 <? rows a)%Z with true by (symmetry; apply Z.ltb_lt; exact HP).
    destruct wa, ra; cbn [andb].
    + change (assoc (lit "aux") [(lit "q", s_q s); (lit "aux", a)]) with (Some a). cbn [a_shape]. rewrite reshaped_same. reflexivity.
    + reflexivity.
    + reflexivity.
    + reflexivity.
  - unfold new_array. cbn [Z.eqb]. destruct ra; reflexivity.
Qed.
End group.

Lemma read_groups_back wa ra : forall (l : list state) (f : file), Forall storable l ->
  f = map (fun s => (group_name s, stored wa s)) l -> read_groups ra f = Ok (map (back (wa && ra)) l).
Proof.
  induction l as [|s l IH]; intros f H E; subst f; [reflexivity|]. apply Forall_cons_iff in H. destruct H as (H1 & H2).
  cbn [map read_groups]. rewrite (read_group_back wa ra s H1). cbn [bind].
  rewrite (IH _ H2 eq_refl). reflexivity.
Qed.
(** The file written *)
Lemma written wa l : NoDup (map group_name l) ->
  exists l', Permutation l l' /\ in_order l' /\
    write_states wa false l [] = Ok (map (fun s => (group_name s, stored wa s)) l').
Proof.
  intro ND. destruct (write_states_spec wa l [] ND) as (f & E & P & S').
  - intros n [].
  - constructor.
  - rewrite app_nil_r in P. apply Permutation_sym in P. apply Permutation_map_inv in P. destruct P as (l' & -> & P).
    exists l'. split; [exact P|]. split; [|exact E].
    revert S'. unfold in_order. clear. induction l' as [|s l IH]; intro H; [constructor|].
    apply StronglySorted_inv in H. destruct H as (H1 & H2). constructor; [exact (IH H1)|].
    rewrite Forall_forall in *. intros x Hx. unfold before.
    exact (H2 (group_name x, stored wa x) (in_map (fun s => (group_name s, stored wa s)) _ _ Hx)).
Qed.
Lemma in_order_unique : forall l l', in_order l -> in_order l' -> Permutation l l' -> l = l'.
Proof.
  induction l as [|s l IH]; intros l' H1 H2 P.
  - apply Permutation_nil in P. subst. reflexivity.
  - destruct l' as [|s' l']; [apply Permutation_sym, Permutation_nil in P; discriminate|].
    apply StronglySorted_inv in H1. destruct H1 as (H1 & F1). apply StronglySorted_inv in H2. destruct H2 as (H2 & F2).
    rewrite Forall_forall in F1, F2.
    assert (E : s = s').
    { assert (I1 : In s (s' :: l')) by (apply (Permutation_in _ P); left; reflexivity).
      assert (I2 : In s' (s :: l)) by (apply (Permutation_in _ (Permutation_sym P)); left; reflexivity).
      destruct I1 as [I1|I1]; [symmetry; exact I1|]. destruct I2 as [I2|I2]; [exact I2|].
      pose proof (F2 _ I1) as L1. pose proof (F1 _ I2) as L2. unfold before in *.
      pose proof (text_ltb_trans _ _ _ L1 L2) as C. rewrite text_ltb_irrefl in C. discriminate. }
    subst s'. f_equal. apply IH; [exact H1|exact H2|]. exact (Permutation_cons_inv P).
Qed.

(** Different patch indices give different groups *)
Lemma str_int_inj a b : str_int a = str_int b -> a = b.
Proof.
  intro E. pose proof (parse_str_int a) as K. rewrite E, parse_str_int in K. congruence.
Qed.
Lemma names_of_indices l : Forall storable l -> NoDup (map (fun s => p_index (s_patch s)) l) -> NoDup (map group_name l).
Proof.
  induction l as [|s l IH]; intros H ND; [constructor|]. apply Forall_cons_iff in H. destruct H as (H1 & H2).
  cbn [map] in *. apply NoDup_cons_iff in ND. destruct ND as (N1 & N2). constructor; [|exact (IH H2 N2)].
  intro K. apply N1. apply in_map_iff in K. destruct K as (x & E & Hx). apply in_map_iff. exists x. split; [|exact Hx].
  rewrite Forall_forall in H2. pose proof (st_index x (H2 x Hx)) as Ix. pose proof (st_index s H1) as Is.
  unfold group_name in E. apply app_inv_head in E.
  destruct (p_index (s_patch x)), (p_index (s_patch s)); try congruence. apply str_int_inj in E. congruence.
Qed.
