(** Constructors and coordinate arrays: proofs. *)
From Coq Require Import Ascii String.
From Verif Require Import Base FormatModel GeometryModel GeometrySpec GeometryProps BuildModel BuildSpec.
Open Scope Q_scope.

(** ** patches *)
Lemma name_in_iff name l : name_in name l = true <-> In name (map nd_name l).
Proof.
  unfold name_in. rewrite existsb_exists, in_map_iff. split; intros (d & H1 & H2); exists d.
  - destruct (list_eq_dec ascii_dec name (nd_name d)) as [E|]; [split; [symmetry; exact E|exact H1]|discriminate].
  - split; [exact H2|]. destruct (list_eq_dec ascii_dec name (nd_name d)); congruence.
Qed.
Lemma add_dims_ok ds : forall seen, NoDup (map nd_name (seen ++ ds)) -> add_dims seen ds = inl (seen ++ ds).
Proof.
  induction ds as [|d ds IH]; intros seen H; [rewrite app_nil_r; reflexivity|]. cbn [add_dims].
  replace (seen ++ d :: ds) with ((seen ++ [d]) ++ ds) in * by (rewrite <- app_assoc; reflexivity).
  destruct (name_in (nd_name d) seen) eqn:E; [|apply IH, H]. exfalso. apply name_in_iff in E.
  rewrite !map_app in H. cbn [map] in H. rewrite <- app_assoc in H. cbn [app] in H. apply NoDup_remove_2 in H.
  apply H. apply in_or_app. left. exact E.
Qed.
Lemma new_patch_ok ds : good_dims ds -> new_patch ds = inl ds.
Proof.
  intros (N & L). unfold new_patch. rewrite (add_dims_ok ds [] N). cbn [app bind].
  replace (length ds <=? 3)%nat with true by (symmetry; apply Nat.leb_le; lia). reflexivity.
Qed.
Lemma all_dims_map ds : all_dims (map IDim ds) = inl ds.
Proof. induction ds as [|d ds IH]; [reflexivity|]. cbn [map all_dims]. rewrite IH. reflexivity. Qed.
Lemma all_patches_map ps : all_patches (map IPatch ps) = inl ps.
Proof. induction ps as [|p ps IH]; [reflexivity|]. cbn [map all_patches]. rewrite IH. reflexivity. Qed.
Lemma only_states_map ss : only_states (map EState ss) = inl ss.
Proof. induction ss as [|s ss IH]; [reflexivity|]. cbn [map only_states]. rewrite IH. reflexivity. Qed.

Lemma solution_domain_ok g ps : documented_geom g ps -> bare g = false -> solution_domain g = inl ps.
Proof.
  intros H B. destruct H as [ps H|p|ps H|d|ds H]; try discriminate.
  - reflexivity.
  - destruct ps as [|p ps]; [congruence|]. cbn [map solution_domain domain1]. exact (all_patches_map (p :: ps)).
  - pose proof (new_patch_ok ds H) as N. destruct H as (_ & L). destruct ds as [|d ds]; [cbn [length] in L; lia|].
    cbn [map solution_domain]. change (IDim d :: map IDim ds) with (map IDim (d :: ds)). rewrite all_dims_map. cbn [bind].
    rewrite N. reflexivity.
Qed.
Lemma solution_states_ok a p r ss : documented_states p a ss -> solution_states a (p :: r) = inl (StateList ss).
Proof.
  intros H. destruct H as [n H|s|ss H].
  - cbn [solution_states new_state]. replace (n <? 0)%Z with false by (symmetry; apply Z.ltb_ge; exact H). reflexivity.
  - reflexivity.
  - destruct ss as [|s ss]; [congruence|]. cbn [map solution_states]. change (EState s :: map EState ss) with (map EState (s :: ss)).
    rewrite only_states_map. reflexivity.
Qed.

(** ** boxes *)
Definition good_names (names : list text) : Prop := NoDup names.
Lemma zip_ok lower : forall upper n names, length lower = length n -> length upper = length n -> (length n <= length names)%nat ->
  Forall (fun k => (0 < k)%Z) n -> Forall2 Qlt lower upper ->
  exists ds, zip_dims lower upper n names = inl ds /\
    map (fun d => x_lower (nd_dim d)) ds = lower /\ map (fun d => x_upper (nd_dim d)) ds = upper /\
    map (fun d => x_n (nd_dim d)) ds = n /\ map nd_name ds = firstn (length n) names /\
    Forall (fun d => valid (nd_dim d) /\ coherent (nd_dim d)) ds.
Proof.
  induction lower as [|lo lower IH]; intros upper n names L1 L2 L3 P F.
  - destruct n; [|discriminate]. destruct upper; [|discriminate]. exists []. repeat split. constructor.
  - destruct n as [|k n]; [discriminate|]. destruct upper as [|up upper]; [discriminate|].
    destruct names as [|name names]; [cbn [length] in L3; lia|].
    inversion P as [|? ? Pk Pn]; subst. inversion F as [|? ? ? ? Fk Fn]; subst.
    destruct (IH upper n names) as (ds & E & H1 & H2 & H3 & H4 & H5); try (cbn [length] in *; lia); try assumption.
    cbn [zip_dims]. unfold new_dim, check_validity. cbn [x_n x_lower x_upper].
    replace (0 <? k)%Z with true by (symmetry; apply Z.ltb_lt; exact Pk).
    replace (qltb lo up) with true by (symmetry; apply qltb_lt; exact Fk). cbn [andb]. rewrite E. cbn [bind].
    eexists. split; [reflexivity|]. cbn [map nd_dim nd_name x_lower x_upper x_n length firstn]. rewrite H1, H2, H3, H4.
    repeat split; try reflexivity. constructor; [|exact H5]. cbn [nd_dim]. split; [split; [exact Pk|exact Fk]|].
    split; intros a Ha; discriminate.
Qed.
Lemma zip_bad lower : forall upper n names, length lower = length n -> length upper = length n -> (length n <= length names)%nat ->
  ~ (Forall (fun k => (0 < k)%Z) n /\ Forall2 Qlt lower upper) -> zip_dims lower upper n names = inr AssertFails.
Proof.
  induction lower as [|lo lower IH]; intros upper n names L1 L2 L3 H.
  - destruct n; [|discriminate]. destruct upper; [|discriminate]. exfalso. apply H. split; constructor.
  - destruct n as [|k n]; [discriminate|]. destruct upper as [|up upper]; [discriminate|].
    destruct names as [|name names]; [cbn [length] in L3; lia|]. cbn [zip_dims].
    unfold new_dim, check_validity. cbn [x_n x_lower x_upper].
    destruct (0 <? k)%Z eqn:K; [|reflexivity]. destruct (qltb lo up) eqn:Q'; [|reflexivity]. cbn [andb].
    rewrite IH; [reflexivity|cbn [length] in *; lia..|]. intros (H1 & H2). apply H.
    apply Z.ltb_lt in K. apply qltb_lt in Q'. split; constructor; assumption.
Qed.
Lemma xyz_nodup k : (k <= 3)%nat -> NoDup (firstn k [lit "x"; lit "y"; lit "z"]).
Proof.
  intros H. destruct k as [|[|[|[|k]]]]; [| | | |lia]; cbn [firstn];
    repeat constructor; cbn [In]; intuition discriminate.
Qed.

(** ** coordinate arrays *)
Lemma mesh_from_ok (ds : list dim) (arr : dim -> list Q) (size : dim -> Z) all : forall i,
  (forall d, In d ds -> Z.of_nat (length (arr d)) = size d) ->
  exists l, mesh_from i (map size ds) all (map arr ds) = inl l /\ length l = length ds /\
    forall k d a, nth_error ds k = Some d -> nth_error l k = Some a ->
      a = mkArr all (fun ix => nth (Z.to_nat (nth (i + k) ix 0%Z)) (arr d) 0).
Proof.
  induction ds as [|d ds IH]; intros i H.
  - exists []. repeat split. intros [|k] d a E; discriminate.
  - cbn [map mesh_from]. replace (Z.of_nat (length (arr d)) <? size d)%Z with false
      by (symmetry; apply Z.ltb_ge; rewrite (H d (or_introl eq_refl)); lia).
    destruct (IH (S i)) as (l & E & L & A); [intros; apply H; right; assumption|]. rewrite E. cbn [bind].
    eexists. split; [reflexivity|]. split; [cbn [length]; rewrite L; reflexivity|].
    intros [|k] d' a E1 E2; cbn [nth_error] in E1, E2.
    + inversion E1; inversion E2; subst. rewrite Nat.add_0_r. reflexivity.
    + rewrite (A k d' a E1 E2). replace (S i + k)%nat with (i + S k)%nat by lia. reflexivity.
Qed.
Lemma index_nth sizes ix i n : index_of sizes ix -> nth_error sizes i = Some n -> (0 <= nth i ix 0 < n)%Z.
Proof.
  intros H. revert i. induction H as [|x y l l' Hx _ IH]; intros [|i] E; try discriminate.
  - inversion E; subst. exact Hx.
  - apply IH, E.
Qed.
Lemma mesh_ok ng (f : dim -> Z -> Q) (ds : list dim) (arr : dim -> list Q) (size : dim -> Z) :
  (forall d, In d ds -> lists (arr d) (- ng) (size d) (f d)) ->
  exists l, mesh (map size ds) (map arr ds) = inl l /\ coordinates ng f ds (map size ds) l.
Proof.
  intros H. destruct (mesh_from_ok ds arr size (map size ds) 0) as (l & E & L & A).
  { intros d Hd. apply (H d Hd). }
  exists l. split; [exact E|]. split; [exact L|]. intros i d a E1 E2. rewrite (A i d a E1 E2). cbn [shape at_].
  split; [reflexivity|]. intros ix Hx. cbn [plus].
  assert (Hd : In d ds) by (eapply nth_error_In; exact E1). destruct (H d Hd) as (_ & K).
  destruct (K (nth i ix 0%Z)) as (x & N & V).
  { apply (index_nth _ _ _ _ Hx). rewrite nth_error_map, E1. reflexivity. }
  rewrite (nth_error_nth _ _ 0 N), V. replace (- ng + nth i ix 0)%Z with (nth i ix 0 - ng)%Z by lia. reflexivity.
Qed.

Lemma wrap_in n i : (0 <= i < n)%Z -> wrap n i = Some i.
Proof.
  intros H. unfold wrap. replace (0 <=? i)%Z with true by (symmetry; apply Z.leb_le; lia).
  replace (i <? n)%Z with true by (symmetry; apply Z.ltb_lt; lia). reflexivity.
Qed.
Lemma wrap_each_in ns ix : index_of ns ix -> wrap_each ns ix = Some ix.
Proof. intros H. induction H as [|i n ix ns Hi _ IH]; [reflexivity|]. cbn [wrap_each]. rewrite (wrap_in _ _ Hi), IH. reflexivity. Qed.
Lemma index_all_tuple l ind sizes : (forall a, In a l -> shape a = sizes) -> index_of sizes ind ->
  index_all true l ind = inl (map (fun a => mkArr [] (fun _ => at_ a ind)) l).
Proof.
  intros H X. induction l as [|a l IH]; [reflexivity|]. cbn [index_all map]. unfold index_by_list at 1.
  rewrite (H a (or_introl eq_refl)), (wrap_each_in _ _ X). cbn [bind]. rewrite IH by (intros; apply H; right; assumption). reflexivity.
Qed.
