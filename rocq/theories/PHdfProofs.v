(** Proofs about HDF5 frames of parallel runs. *)
From Coq Require Import Ascii String Permutation.
From Verif Require Import Base FormatModel HdfModel HdfSpec HdfProofs PHdfModel PHdfSpec.
Open Scope Q_scope.

(** ** Positions *)
Lemma zupto_in n i : In i (zupto n) <-> (0 <= i < n)%Z.
Proof.
  unfold zupto. rewrite in_map_iff. split.
  - intros (k & <- & H). apply in_seq in H. lia.
  - intros H. exists (Z.to_nat i). split; [lia|]. apply in_seq. lia.
Qed.
Lemma zupto_length n : length (zupto n) = Z.to_nat n.
Proof. unfold zupto. rewrite map_length, seq_length. reflexivity. Qed.
Lemma zupto_add a b : (0 <= a)%Z -> (0 <= b)%Z -> zupto (a + b) = zupto a ++ map (fun i => (a + i)%Z) (zupto b).
Proof.
  intros Ha Hb. unfold zupto. rewrite Z2Nat.inj_add, seq_app, map_app by assumption. f_equal. rewrite map_map.
  rewrite <- (map_id (seq 0 (Z.to_nat b))) at 1. rewrite Nat.add_0_l.
  replace (seq (Z.to_nat a) (Z.to_nat b)) with (map (fun k => (Z.to_nat a + k)%nat) (seq 0 (Z.to_nat b))).
  - rewrite !map_map. apply map_ext. intros k. lia.
  - generalize (Z.to_nat b). intros n. generalize (Z.to_nat a). intros m. induction n as [|n IH]; [reflexivity|].
    rewrite !seq_S, map_app, IH. reflexivity.
Qed.
Lemma zupto_mul n : forall k, (0 <= n)%Z -> flat_map (fun p => map (fun i => (i + n * p)%Z) (zupto n)) (zupto (Z.of_nat k)) = zupto (n * Z.of_nat k).
Proof.
  induction k as [|k IH]; intros Hn.
  - change (Z.of_nat 0) with 0%Z. rewrite Z.mul_0_r. reflexivity.
  - rewrite Nat2Z.inj_succ. unfold Z.succ. rewrite (zupto_add (Z.of_nat k) 1) by lia. rewrite flat_map_app, IH by exact Hn.
    replace (n * (Z.of_nat k + 1))%Z with (n * Z.of_nat k + n)%Z by ring. rewrite zupto_add by lia. f_equal.
    change (zupto 1) with [0%Z]. cbn [map flat_map]. rewrite app_nil_r. apply map_ext. intros i. lia.
Qed.
Lemma in_indices shape : forall ix, In ix (indices shape) <-> in_shape shape ix.
Proof.
  induction shape as [|n s IH]; intros ix; cbn [indices].
  - split; [intros [<-|[]]; constructor|]. intros H. inversion H. left. reflexivity.
  - rewrite in_flat_map. split.
    + intros (jx & Hj & Hi). apply in_map_iff in Hi. destruct Hi as (i & <- & Hi). constructor; [apply zupto_in; exact Hi|apply IH; exact Hj].
    + intros H. inversion H as [|? i ? jx Hi Hj]; subst. exists jx. split; [apply IH; exact Hj|]. apply in_map_iff. exists i. split; [reflexivity|apply zupto_in; exact Hi].
Qed.
Definition nonneg (shape : list Z) : Prop := Forall (fun n => (0 <= n)%Z) shape.
Lemma size_nonneg shape : nonneg shape -> (0 <= size shape)%Z.
Proof. induction 1 as [|n s Hn Hs IH]; cbn; [lia|]. unfold size in IH. nia. Qed.
Lemma pos_indices shape : nonneg shape -> map (pos shape) (indices shape) = zupto (size shape).
Proof.
  induction 1 as [|n s Hn Hs IH]; [reflexivity|]. cbn [indices size fold_right]. fold (size s).
  pose proof (size_nonneg s Hs) as Hz. rewrite <- (Z2Nat.id (size s)) by exact Hz. rewrite <- zupto_mul by exact Hn. rewrite Z2Nat.id by exact Hz.
  rewrite <- IH. clear IH. induction (indices s) as [|jx l IH]; [reflexivity|]. cbn [flat_map map]. rewrite map_app, IH. f_equal.
  rewrite map_map. reflexivity.
Qed.
Lemma indices_length shape : nonneg shape -> length (indices shape) = Z.to_nat (size shape).
Proof. intros H. rewrite <- (map_length (pos shape)), pos_indices by exact H. apply zupto_length. Qed.
Lemma in_shape_nonneg shape ix : in_shape shape ix -> nonneg shape.
Proof. induction 1; constructor; [lia|assumption]. Qed.
Lemma pos_bound shape ix : in_shape shape ix -> (0 <= pos shape ix < size shape)%Z.
Proof.
  induction 1 as [|n i s ix Hi H IH]; cbn [pos size fold_right]; [lia|]. fold (size s). nia.
Qed.
Lemma pos_inj shape : forall ix jx, in_shape shape ix -> in_shape shape jx -> pos shape ix = pos shape jx -> ix = jx.
Proof.
  induction shape as [|n s IH]; intros ix jx Hi Hj E; inversion Hi as [|? i ? ix' Hi1 Hi2]; inversion Hj as [|? j ? jx' Hj1 Hj2]; subst; [reflexivity|].
  cbn [pos] in E. assert (P : pos s ix' = pos s jx').
  { pose proof (pos_bound s ix' Hi2). pose proof (pos_bound s jx' Hj2). nia. }
  rewrite (IH ix' jx' Hi2 Hj2 P). f_equal. rewrite P in E. lia.
Qed.
Lemma nth_indices shape ix : in_shape shape ix -> nth (Z.to_nat (pos shape ix)) (indices shape) [] = ix.
Proof.
  intros H. pose proof (in_shape_nonneg _ _ H) as N. pose proof (pos_bound _ _ H) as B.
  assert (L : (Z.to_nat (pos shape ix) < length (indices shape))%nat) by (rewrite indices_length by exact N; lia).
  pose proof (nth_In _ [] L) as I. apply in_indices in I. apply (pos_inj shape); [exact I|exact H|].
  assert (P : nth (Z.to_nat (pos shape ix)) (map (pos shape) (indices shape)) 0%Z = pos shape ix).
  { rewrite pos_indices by exact N. unfold zupto. change 0%Z with (Z.of_nat 0) at 1. rewrite map_nth, seq_nth by lia. lia. }
  rewrite (nth_indep _ 0%Z (pos shape [])) in P by (rewrite map_length; exact L). rewrite map_nth in P. exact P.
Qed.
Lemma at_build shape f ix : in_shape shape ix -> at_ shape (build shape f) ix = f ix.
Proof.
  intros H. pose proof (in_shape_nonneg _ _ H) as N. pose proof (pos_bound _ _ H) as B. unfold at_, build.
  rewrite (nth_indep _ 0 (f [])) by (rewrite map_length, indices_length by exact N; lia). rewrite map_nth, nth_indices by exact H. reflexivity.
Qed.
Lemma build_length shape f : nonneg shape -> Z.of_nat (length (build shape f)) = size shape.
Proof. intros H. unfold build. rewrite map_length, indices_length by exact H. pose proof (size_nonneg _ H). lia. Qed.
Lemma build_ext shape f g : (forall ix, in_shape shape ix -> f ix = g ix) -> build shape f = build shape g.
Proof. intros H. unfold build. apply map_ext_in. intros ix Hi. apply H, in_indices, Hi. Qed.
Lemma map_nth_seq (l : list Q) : map (fun k => nth k l 0) (seq 0 (length l)) = l.
Proof.
  induction l as [|x l IH] using rev_ind; [reflexivity|]. rewrite app_length, Nat.add_comm. cbn [length Nat.add]. rewrite seq_S, map_app. cbn [map Nat.add].
  f_equal; [|rewrite app_nth2, Nat.sub_diag by lia; reflexivity]. rewrite <- IH at 2. apply map_ext_in. intros k Hk. apply in_seq in Hk. apply app_nth1. lia.
Qed.
Lemma build_at shape l : nonneg shape -> Z.of_nat (length l) = size shape -> build shape (at_ shape l) = l.
Proof.
  intros N L. unfold build, at_. rewrite <- (map_map (pos shape) (fun p => nth (Z.to_nat p) l 0)), pos_indices by exact N. unfold zupto. rewrite map_map.
  rewrite <- L, Nat2Z.id. transitivity (map (fun k => nth k l 0) (seq 0 (length l))); [|apply map_nth_seq]. apply map_ext. intros k. rewrite Nat2Z.id. reflexivity.
Qed.
Lemma at_ext shape l l' : nonneg shape -> Z.of_nat (length l) = size shape -> Z.of_nat (length l') = size shape ->
  (forall ix, in_shape shape ix -> at_ shape l ix = at_ shape l' ix) -> l = l'.
Proof. intros N L L' H. rewrite <- (build_at shape l N L), <- (build_at shape l' N L'). apply build_ext. exact H. Qed.

(** ** Boxes *)
Lemma inside_spec b : forall jx, inside b jx = true <-> Forall2 (fun p i => (fst p <= i < snd p)%Z) b jx.
Proof.
  induction b as [|[lo hi] b IH]; intros [|i jx]; cbn [inside].
  - split; [constructor|reflexivity].
  - split; [discriminate|]. intros H. inversion H.
  - split; [discriminate|]. intros H. inversion H.
  - rewrite !andb_true_iff, IH. split.
    + intros [[A B] C]. constructor; [cbn; lia|exact C].
    + intros H. inversion H as [|? ? ? ? A B]; subst. cbn in A. split; [lia|exact B].
Qed.
Lemma less_in b jx : inside b jx = true -> in_shape (widths b) (less b jx) /\ plus b (less b jx) = jx.
Proof.
  rewrite inside_spec. induction 1 as [|[lo hi] i b jx Hi H [IH1 IH2]]; [split; [constructor|reflexivity]|]. cbn [widths map less plus fst snd] in *.
  split; [constructor; [lia|exact IH1]|]. rewrite IH2. f_equal. lia.
Qed.
Lemma plus_in cells b jx : box_of cells b -> in_shape (widths b) jx -> in_shape cells (plus b jx) /\ inside b (plus b jx) = true /\ less b (plus b jx) = jx.
Proof.
  intros HB. revert jx. induction HB as [|n [lo hi] cells b Hb HB IH]; intros jx Hj; cbn [widths map] in Hj; inversion Hj as [|? i ? jx' Hi Hj']; subst.
  - split; [constructor|split; reflexivity].
  - cbn [fst snd] in *. destruct (IH jx' Hj') as (A & B & C). cbn [plus inside less]. split; [constructor; [lia|exact A]|]. rewrite B, C. split; [|f_equal; lia].
    rewrite !andb_true_iff. lia.
Qed.
Lemma widths_nonneg cells b : box_of cells b -> nonneg (widths b).
Proof. induction 1 as [|n p cells b H HB IH]; constructor; [lia|exact IH]. Qed.
Lemma clipped_box cells b : box_of cells b -> clipped b cells = b /\ map (Z.max 0) (widths b) = widths b.
Proof.
  induction 1 as [|n [lo hi] cells b H HB [IH1 IH2]]; [split; reflexivity|]. cbn [fst snd] in H. unfold clipped. cbn [combine map widths fst snd]. fold (clipped b cells). rewrite IH1.
  fold (widths b). rewrite IH2. split; [|f_equal; lia]. f_equal. rewrite !Z.min_l by lia. reflexivity.
Qed.

Lemma zlist_eqb_refl l : zlist_eqb l l = true.
Proof. unfold zlist_eqb. destruct (list_eq_dec Z.eq_dec l l); congruence. Qed.

(** ** Storing the parts of an array *)
Section S.
Variables (n : Z) (cells : list Z).
Hypothesis Hn : (0 <= n)%Z.
Hypothesis Hc : nonneg cells.
Lemma Hs : nonneg (n :: cells). Proof. constructor; assumption. Qed.
Lemma store_none a : a_shape a = n :: cells -> a_data a = None -> forall parts d, a_shape d = n :: cells ->
  Forall (fun x => part (fst x) a (snd x)) parts -> parts <> [] \/ a_data d = None -> store_all d parts = Ok a.
Proof.
  intros Ea En. induction parts as [|[b a'] parts IH]; intros d Ed HP HN; cbn [store_all].
  - destruct HN as [HN|HN]; [congruence|]. destruct a as [sa da], d as [sd dd]. cbn in *. congruence.
  - apply Forall_cons_iff in HP. destruct HP as [[P1 P2] HP]. cbn [fst snd] in P1, P2. unfold store. rewrite Ed, P1. unfold rows. rewrite Ea. cbn [hd].
    rewrite Z.eqb_refl, zlist_eqb_refl. cbn [andb bind]. apply IH; [reflexivity|exact HP|]. right. cbn [a_data]. rewrite En in P2.
    destruct (a_data a'); [contradiction|]. destruct (a_data d); reflexivity.
Qed.
Lemma store_some a l : a_shape a = n :: cells -> a_data a = Some l -> forall parts old,
  Z.of_nat (length old) = size (n :: cells) -> Forall (fun x => box_of cells (fst x) /\ part (fst x) a (snd x)) parts ->
  exists new, store_all (mkArray (n :: cells) (Some old)) parts = Ok (mkArray (n :: cells) (Some new)) /\ Z.of_nat (length new) = size (n :: cells) /\
  forall m jx, in_shape (n :: cells) (m :: jx) ->
    at_ (n :: cells) old (m :: jx) = at_ (n :: cells) l (m :: jx) \/ Exists (fun x => inside (fst x) jx = true) parts ->
    at_ (n :: cells) new (m :: jx) = at_ (n :: cells) l (m :: jx).
Proof.
  intros Ea El. induction parts as [|[b a'] parts IH]; intros old Ho HP; cbn [store_all].
  - exists old. split; [reflexivity|]. split; [exact Ho|]. intros m jx _ [H|H]; [exact H|]. inversion H.
  - apply Forall_cons_iff in HP. destruct HP as [[HB [P1 P2]] HP]. cbn [fst snd] in HB, P1, P2. unfold rows in P1. rewrite Ea in P1. cbn [hd] in P1. rewrite El in P2.
    destruct (a_data a') as [l'|] eqn:El'; [|contradiction]. destruct P2 as [P2 P3]. rewrite P1 in P2, P3. rewrite Ea in P3.
    unfold store. cbn [a_shape a_data]. rewrite P1, El'. rewrite Z.eqb_refl, zlist_eqb_refl. cbn [andb bind].
    match goal with |- context [build ?s ?f] => destruct (IH (build s f)) as (new & E & L & H) end; [apply build_length, Hs|exact HP|].
    exists new. split; [exact E|]. split; [exact L|]. intros m jx Hx HO. apply H; [exact Hx|]. rewrite at_build by exact Hx.
    destruct (inside b jx) eqn:Eb.
    + left. destruct (less_in b jx Eb) as [A B]. rewrite P3; [rewrite B; reflexivity|]. inversion Hx; subst. constructor; assumption.
    + destruct HO as [HO|HO]; [left; exact HO|]. inversion HO as [? ? K|? ? K]; subst; [cbn [fst] in K; congruence|]. right. exact K.
Qed.
Lemma stored_whole a parts : a_shape a = n :: cells -> full a ->
  Forall (fun x => box_of cells (fst x) /\ part (fst x) a (snd x)) parts -> spread cells (map fst parts) ->
  store_all (create (n :: cells)) parts = Ok a.
Proof.
  intros Ea Fa HP (S1 & _ & S3). unfold full in Fa. destruct (a_data a) as [l|] eqn:El.
  - destruct (store_some a l Ea El parts (build (n :: cells) (fun _ => 0)) (build_length _ _ Hs) HP) as (new & E & L & H).
    unfold create. rewrite E. f_equal. destruct a as [sa da]. cbn [a_shape a_data] in *. subst sa da. do 2 f_equal.
    apply (at_ext (n :: cells)); [apply Hs|exact L|exact Fa|]. intros ix Hx. inversion Hx as [|? m ? jx Hm Hj]; subst. apply H; [exact Hx|]. right.
    specialize (S3 jx Hj). apply Exists_exists in S3. destruct S3 as (b & Hb & Hi). apply in_map_iff in Hb. destruct Hb as (x & <- & Hx'). apply Exists_exists. exists x. auto.
  - apply (store_none a Ea El); [reflexivity| |left; intros ->; apply S1; reflexivity].
    eapply Forall_impl; [|exact HP]. cbn beta. intros x [_ H]. exact H.
Qed.
End S.

(** ** Writing *)
Lemma fits_shape s a : fits_grid s a -> a_shape a = rows a :: map d_n (p_dims (s_patch s)).
Proof. intros (n & _ & E). unfold rows. rewrite E. reflexivity. Qed.
Lemma cells_nonneg s : storable s -> nonneg (map d_n (p_dims (s_patch s))).
Proof.
  intros H. apply Forall_forall. intros n Hn. apply in_map_iff in Hn. destruct Hn as (d & <- & Hd).
  pose proof (proj1 (Forall_forall _ _) (st_dims s H) d Hd) as (A & _). lia.
Qed.
Lemma part_rows b a a' : part b a a' -> rows a' = rows a.
Proof. intros [E _]. unfold rows at 1. rewrite E. reflexivity. Qed.

Section W.
Variable s : state.
Variable bs : list box.
Variable d : dstate.
Hypothesis St : storable s.
Hypothesis Wh : whole s.
Notation cells := (map d_n (p_dims (s_patch s))).
Hypothesis Sp : spread cells bs.
Hypothesis Di : distributed bs s d.

(** The parts of one of the arrays *)
Lemma parts_of (f : state -> option array) (a : array) (l : dstate -> list (box * array)) : (forall b s', share b s s' -> part_option b (f s) (f s')) -> f s = Some a ->
  (forall r bs', distributed bs' s r -> l r = flat_map (fun x => match f (snd x) with Some y => [(fst x, y)] | None => [] end) r) ->
  Forall (fun x => box_of cells (fst x) /\ part (fst x) a (snd x)) (l d) /\ map fst (l d) = bs.
Proof.
  intros Hf Ea Hl. rewrite (Hl d bs Di). destruct Sp as (_ & SB & _). revert SB. clear Sp Hl. unfold distributed in Di. induction Di as [|b [b' s'] bs0 d0 [E1 E2] HD IH]; intros SB; [split; [constructor|reflexivity]|].
  cbn [fst snd] in E1, E2. subst b'. apply Forall_cons_iff in SB. destruct SB as [SB1 SB2]. destruct (IH HD SB2) as [A B]. cbn [flat_map fst snd].
  pose proof (Hf b s' E2) as P. rewrite Ea in P. destruct (f s') as [y|]; [|contradiction]. cbn [app map fst]. split; [constructor; [split; assumption|exact A]|].
  rewrite B. reflexivity.
Qed.
Lemma chosen_none : s_p s = None -> bs <> [] -> chosen true d = Err NoArray.
Proof.
  intros Ep Hb. destruct Di as [|b [b' s'] bs0 d0 [E1 E2] HD]; [congruence|]. cbn [chosen]. destruct E2 as (_ & _ & _ & P & _). cbn [snd] in P. rewrite Ep in P.
  destruct (s_p s'); [contradiction|]. reflexivity.
Qed.
Lemma chosen_some (wp : bool) (a : array) : (if wp then s_p s else Some (s_q s)) = Some a ->
  forall bs0 d0, distributed bs0 s d0 ->
  chosen wp d0 = Ok (flat_map (fun x => match (if wp then s_p (snd x) else Some (s_q (snd x))) with Some y => [(fst x, y)] | None => [] end) d0).
Proof.
  intros Ea bs0 d0 HD. induction HD as [|b [b' s'] bs0 d0 [E1 E2] HD IH]; [reflexivity|]. cbn [chosen flat_map fst snd]. destruct E2 as (_ & _ & _ & P & _). cbn [snd] in P.
  destruct wp.
  - rewrite Ea in P. destruct (s_p s') as [y|]; [|contradiction]. cbn [bind]. rewrite IH. reflexivity.
  - cbn [bind]. rewrite IH. reflexivity.
Qed.
Lemma auxes_some : forall d0, auxes d0 = flat_map (fun x => match s_aux (snd x) with Some y => [(fst x, y)] | None => [] end) d0.
Proof. induction d0 as [|[b s'] d0 IH]; [reflexivity|]. cbn [auxes flat_map fst snd]. rewrite IH. destruct (s_aux s'); reflexivity. Qed.

Lemma head_share : exists b s' r, d = (b, s') :: r /\ share b s s'.
Proof.
  destruct Sp as (S1 & _). destruct Di as [|b [b' s'] bs0 d0 [E1 E2] HD]; [congruence|]. cbn [fst snd] in *. subst b'. exists b, s', d0. split; [reflexivity|exact E2].
Qed.
Lemma num_aux_share b s' : share b s s' -> num_aux s' = num_aux s.
Proof.
  intros (_ & _ & _ & _ & P). unfold num_aux, part_option in *. destruct (s_aux s), (s_aux s'); try contradiction; [|reflexivity]. exact (part_rows _ _ _ P).
Qed.
Lemma attrs_share b s' : share b s s' -> attrs_of s' = attrs_of s /\ group_name s' = group_name s.
Proof.
  intros H. pose proof (num_aux_share b s' H) as N. destruct H as (E1 & E2 & P & _). unfold attrs_of, group_name. rewrite E1, E2, N, (part_rows _ _ _ P). split; reflexivity.
Qed.
Lemma par_name_same : par_name d = group_name s.
Proof. destruct head_share as (b & s' & r & -> & H). exact (proj2 (attrs_share b s' H)). Qed.

Lemma par_group_same (wa wp : bool) : par_group wa wp d = group_of wa wp s.
Proof.
  destruct head_share as (b & s' & r & Ed & Hs). destruct Wh as (W1 & W2 & W3 & W4). pose proof (cells_nonneg s St) as NC.
  unfold par_group, group_of. rewrite Ed at 1. rewrite (proj1 (attrs_share b s' Hs)), (num_aux_share b s' Hs). replace (s_patch s') with (s_patch s) by (symmetry; apply Hs).
  assert (Q1 : chosen wp d = Err NoArray /\ (if wp then s_p s else Some (s_q s)) = None \/
    exists a parts, (if wp then s_p s else Some (s_q s)) = Some a /\ chosen wp d = Ok parts /\
      store_all (create (match parts with (_, a0) :: _ => rows a0 | [] => 0%Z end :: cells)) parts = Ok a).
  { destruct (if wp then s_p s else Some (s_q s)) as [a|] eqn:Ea.
    - right. pose proof (chosen_some wp a Ea) as CH.
      destruct (parts_of (fun x => if wp then s_p x else Some (s_q x)) a
        (fun d0 => flat_map (fun x => match (if wp then s_p (snd x) else Some (s_q (snd x))) with Some y => [(fst x, y)] | None => [] end) d0)) as [A B]; [|exact Ea|reflexivity|].
      { intros b0 s0 (_ & _ & P1 & P2 & _). destruct wp; [exact P2|exact P1]. }
      eexists. eexists. split; [reflexivity|]. split; [exact (CH bs d Di)|]. revert A B. generalize (flat_map (fun x => match (if wp then s_p (snd x) else Some (s_q (snd x))) with Some y => [(fst x, y)] | None => [] end) d).
      intros parts A B.
      assert (FA : full a /\ a_shape a = rows a :: cells /\ (0 < rows a)%Z).
      { destruct wp; [rewrite Ea in W2; destruct W2 as (F1 & F2 & F3)|injection Ea as <-]; (split; [assumption|split; [apply fits_shape|assumption]]); [exact F2|exact (st_q s St)]. }
      destruct FA as (F1 & F2 & F3).
      replace (match parts with (_, a0) :: _ => rows a0 | [] => 0%Z end) with (rows a).
      + apply stored_whole; [lia|exact NC|exact F2|exact F1|exact A|rewrite B; exact Sp].
      + destruct parts as [|[b0 a0] parts]; [destruct Sp as (S1 & _); cbn in B; congruence|]. apply Forall_inv in A. symmetry. exact (part_rows _ _ _ (proj2 A)).
    - left. destruct wp; [|discriminate]. split; [|reflexivity]. apply chosen_none; [exact Ea|apply Sp]. }
  assert (A1 : forall a, s_aux s = Some a -> (0 <? num_aux s)%Z = true -> store_all (create (num_aux s :: cells)) (auxes d) = Ok a).
  { intros a Ea Hp. destruct (parts_of s_aux a auxes) as [A B]; [|exact Ea|intros r0 _ _; apply auxes_some|].
    { intros b0 s0 (_ & _ & _ & _ & P). exact P. }
    pose proof (st_aux s St) as HA. rewrite Ea in HA, W3. destruct HA as [HA _]. unfold num_aux in *. rewrite Ea in *.
    apply stored_whole; [lia|exact NC|exact (fits_shape s a HA)|exact W3|exact A|rewrite B; exact Sp]. }
  destruct Q1 as [[-> Q2]|(a & parts & Ea & -> & Q2)].
  - destruct wp; [|discriminate]. rewrite Q2. reflexivity.
  - cbn [bind]. rewrite Q2. cbn [bind].
    assert (EQ : (if wp then match s_p s with Some a => Ok a | None => Err NoArray end else Ok (s_q s)) = Ok a).
    { destruct wp; [rewrite Ea; reflexivity|congruence]. }
    rewrite EQ. cbn [bind]. destruct (s_aux s) as [x|] eqn:Ex.
    + destruct (wa && (0 <? num_aux s)%Z)%bool eqn:Ew; [|reflexivity]. apply andb_true_iff in Ew. rewrite (A1 x eq_refl (proj2 Ew)). reflexivity.
    + assert (N0 : num_aux s = 0%Z) by (unfold num_aux; rewrite Ex; reflexivity). rewrite N0. change (0 <? 0)%Z with false. rewrite andb_false_r. reflexivity.
Qed.
End W.

Lemma par_write_same wa wp : forall l dl, Forall2 in_parts l dl -> forall f, par_write_states wa wp dl f = write_states wa wp l f.
Proof.
  induction 1 as [|s d l dl (H1 & H2 & bs & H3 & H4) HF IH]; intros f; [reflexivity|]. cbn [par_write_states write_states].
  rewrite (par_group_same s bs d H1 H2 H3 H4), (par_name_same s bs d H3 H4). destruct (group_of wa wp s) as [g|e]; [|reflexivity]. cbn [bind].
  destruct (add_group (group_name s) g f); [|reflexivity]. cbn [bind]. apply IH.
Qed.

(** ** Reading *)
Lemma forall2_rev {A B} (R : A -> B -> Prop) l l' : Forall2 R l l' -> Forall2 R (rev l) (rev l').
Proof. induction 1 as [|x y l l' H HF IH]; [constructor|]. cbn [rev]. apply Forall2_app; [exact IH|]. constructor; [exact H|constructor]. Qed.
Lemma c_reshaped_same a : nonneg (a_shape a) -> full a -> c_reshaped a (a_shape a) = Ok a.
Proof.
  intros N F. unfold c_reshaped. rewrite Z.eqb_refl. f_equal. destruct a as [s [l|]]; [|reflexivity]. unfold full in F. cbn [a_shape a_data option_map] in *. do 2 f_equal.
  transitivity (build s (at_ s l)); [|exact (build_at s l N F)]. apply build_ext. intros ix Hx. apply forall2_rev in Hx as Hr.
  pose proof (pos_bound _ _ Hr) as B. pose proof (in_shape_nonneg _ _ Hr) as NR.
  pose proof (map_nth (fun rx => at_ s l (rev rx)) (indices (rev s)) [] (Z.to_nat (pos (rev s) (rev ix)))) as M.
  rewrite nth_indices in M by exact Hr. rewrite rev_involutive in M. rewrite <- M. apply nth_indep.
  rewrite map_length. pose proof (indices_length (rev s) NR). lia.
Qed.
Lemma cut_part b a n cells : a_shape a = n :: cells -> (0 <= n)%Z -> box_of cells b -> part b a (cut b a) /\ a_shape (cut b a) = n :: widths b.
Proof.
  intros Ea Hn HB. unfold cut, part, rows. rewrite Ea. destruct (clipped_box cells b HB) as [-> E2]. rewrite E2. cbn [a_shape a_data hd]. split; [|reflexivity].
  split; [reflexivity|]. destruct (a_data a) as [l|]; [|exact I]. cbn [option_map]. split.
  - apply build_length. constructor; [exact Hn|exact (widths_nonneg cells b HB)].
  - intros m jx Hx. rewrite at_build by exact Hx. reflexivity.
Qed.

Section R.
Variables (wa ra : bool) (s : state) (range : list Z -> box).
Hypothesis St : storable s.
Hypothesis Wh : whole s.
Notation cells := (map d_n (p_dims (s_patch s))).
Hypothesis HB : box_of cells (range cells).
Lemma par_read_back : exists s', par_read_group range ra (stored wa s) = Ok s' /\ share (range cells) (back (wa && ra) s) s'.
Proof.
  destruct Wh as (W1 & W2 & W3 & W4). unfold par_read_group.
  assert (HI : exists i, p_index (s_patch s) = Some i) by (destruct (p_index (s_patch s)) as [i|] eqn:E; [exists i; reflexivity|destruct (st_index s St E)]).
  assert (HL : exists i, p_level (s_patch s) = Some i) by (destruct (p_level (s_patch s)) as [i|] eqn:E; [exists i; reflexivity|destruct (st_level s St E)]).
  destruct HI as (i & Ei). destruct HL as (v & Ev).
  assert (HH : forall k w, In (k, w) ([(lit "t", ANum (s_t s)); (lit "num_eqn", AInt (rows (s_q s))); (lit "num_aux", AInt (num_aux s));
     (lit "patch_index", AInt i); (lit "level", AInt v); (lit "dimensions", ANames (map d_name (p_dims (s_patch s))))]) ->
     assoc k (g_attrs (stored wa s)) = Some w).
  { intros k w H. apply (find_head wa s St). unfold head_attrs. rewrite Ei, Ev. exact H. }
  rewrite (HH (lit "dimensions") (ANames (map d_name (p_dims (s_patch s))))) by (cbn [In]; tauto).
  rewrite (read_dims_back wa s St (p_dims (s_patch s))) by (intros d H; exact H). cbn [bind].
  unfold num_attr, int_attr.
  rewrite (HH (lit "t") (ANum (s_t s))) by (cbn [In]; tauto). cbn [bind].
  rewrite (HH (lit "num_eqn") (AInt (rows (s_q s)))) by (cbn [In]; tauto). cbn [bind].
  rewrite (HH (lit "patch_index") (AInt i)) by (cbn [In]; tauto). cbn [bind].
  rewrite (HH (lit "level") (AInt v)) by (cbn [In]; tauto). cbn [bind].
  rewrite (HH (lit "num_aux") (AInt (num_aux s))) by (cbn [In]; tauto). cbn [bind]. cbv zeta.
  replace (rows (s_q s) =? 0)%Z with false by (symmetry; apply Z.eqb_neq; lia).
  assert (EP : mkPatch (Some i) (Some v) (p_dims (s_patch s)) = s_patch s) by (rewrite <- Ei, <- Ev; destruct (s_patch s); reflexivity).
  change (assoc (lit "q") (g_sets (stored wa s))) with (Some (s_q s)).
  pose proof (fits_shape s (s_q s) (st_q s St)) as Eq. pose proof (cells_nonneg s St) as NC.
  rewrite <- Eq. rewrite c_reshaped_same; [|rewrite Eq; constructor; [lia|exact NC]|exact W1]. cbn [bind].
  destruct (cut_part (range cells) (s_q s) _ _ Eq ltac:(lia) HB) as [P1 P2]. rewrite <- P2, reshaped_same. cbn [bind]. rewrite EP. unfold back.
  pose proof (st_aux s St) as HA. unfold num_aux, stored. cbn [g_sets].
  destruct (s_aux s) as [a|] eqn:Ea.
  - destruct HA as (HF & HP). unfold num_aux. rewrite Ea. pose proof (fits_shape s a HF) as Ea'.
    destruct (cut_part (range cells) a _ _ Ea' ltac:(lia) HB) as [R1 R2].
    replace (0 <? rows a)%Z with true by (symmetry; apply Z.ltb_lt; exact HP). replace (rows a =? 0)%Z with false by (symmetry; apply Z.eqb_neq; lia).
    destruct wa, ra; cbn [andb].
    + change (assoc (lit "aux") [(lit "q", s_q s); (lit "aux", a)]) with (Some a). rewrite <- R2, reshaped_same. cbn [bind].
      eexists. split; [reflexivity|]. split; [reflexivity|]. split; [reflexivity|]. split; [exact P1|]. split; [exact I|]. exact R1.
    + cbn [bind]. eexists. split; [reflexivity|]. split; [reflexivity|]. split; [reflexivity|]. split; [exact P1|]. split; [exact I|].
      cbn [s_aux part_option]. split; [cbn [a_shape rows]; reflexivity|exact I].
    + cbn [bind]. change (assoc (lit "aux") [(lit "q", s_q s)]) with (@None array). cbn [bind]. eexists. split; [reflexivity|]. split; [reflexivity|]. split; [reflexivity|]. split; [exact P1|]. split; [exact I|].
      cbn [s_aux part_option]. split; [cbn [a_shape rows]; reflexivity|exact I].
    + cbn [bind]. eexists. split; [reflexivity|]. split; [reflexivity|]. split; [reflexivity|]. split; [exact P1|]. split; [exact I|].
      cbn [s_aux part_option]. split; [cbn [a_shape rows]; reflexivity|exact I].
  - change (0 =? 0)%Z with true. change (assoc (lit "aux") [(lit "q", s_q s)]) with (@None array). replace (if ra then @None array else None) with (@None array) by (destruct ra; reflexivity).
    cbn [bind]. eexists. split; [reflexivity|]. split; [reflexivity|]. split; [reflexivity|]. split; [exact P1|]. split; exact I.
Qed.
End R.
Lemma par_reads_back wa ra range : forall l, Forall storable l -> Forall whole l ->
  Forall (fun s => box_of (map d_n (p_dims (s_patch s))) (range (map d_n (p_dims (s_patch s))))) l ->
  exists r, par_read_groups range ra (map (fun s => (group_name s, stored wa s)) l) = Ok r /\
  Forall2 (fun s s' => share (range (map d_n (p_dims (s_patch s)))) (back (wa && ra) s) s') l r.
Proof.
  induction l as [|s l IH]; intros H1 H2 H3; [exists []; split; [reflexivity|constructor]|].
  apply Forall_cons_iff in H1, H2, H3. destruct H1 as [A1 A2], H2 as [B1 B2], H3 as [C1 C2]. destruct (IH A2 B2 C2) as (r & E & F).
  destruct (par_read_back wa ra s range A1 B1 C1) as (s' & E' & S'). cbn [map par_read_groups]. rewrite E'. cbn [bind]. rewrite E. cbn [bind].
  eexists. split; [reflexivity|]. constructor; assumption.
Qed.
