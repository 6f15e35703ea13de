(** Proofs about shared memory. *)
From Coq Require FinFun.
From Verif Require Import Base AliasModel AliasSpec.
Local Open Scope nat_scope.

(** *** Places *)
Lemma prod_cons n sh : prod (n :: sh) = n * prod sh.
Proof. reflexivity. Qed.

Lemma map_add_seq k n c : map (fun i => c + i) (seq k n) = seq (c + k) n.
Proof.
  revert k. induction n as [|n IH]; intro k; cbn [seq map]; [reflexivity|].
  rewrite IH. f_equal. f_equal. lia.
Qed.
Lemma blocks n m : flat_map (fun j => map (fun i => j * n + i) (seq 0 n)) (seq 0 m) = seq 0 (m * n).
Proof.
  induction m as [|m IH]; [reflexivity|].
  rewrite seq_S, flat_map_app, IH. cbn [flat_map]. rewrite app_nil_r, map_add_seq.
  replace (S m * n) with (m * n + n) by lia. rewrite seq_app. f_equal. f_equal. lia.
Qed.
Lemma flat_map_map {A B C} (f : A -> B) (g : B -> list C) l : flat_map g (map f l) = flat_map (fun x => g (f x)) l.
Proof. induction l as [|a l IH]; cbn; [reflexivity|]. rewrite IH. reflexivity. Qed.
Lemma map_flat_map {A B C} (f : B -> C) (g : A -> list B) l : map f (flat_map g l) = flat_map (fun x => map f (g x)) l.
Proof. induction l as [|a l IH]; cbn; [reflexivity|]. rewrite map_app, IH. reflexivity. Qed.
Lemma flat_map_ext' {A B} (f g : A -> list B) l : (forall x, In x l -> f x = g x) -> flat_map f l = flat_map g l.
Proof.
  induction l as [|a l IH]; intro H; cbn; [reflexivity|].
  rewrite H by (left; reflexivity). rewrite IH by (intros; apply H; right; assumption). reflexivity.
Qed.

Lemma places_fresh sh : forall k, places (fstrides k sh) = map (fun j => j * k) (seq 0 (prod sh)).
Proof.
  induction sh as [|n sh IH]; intro k; [reflexivity|].
  cbn [fstrides places]. rewrite IH, flat_map_map, prod_cons, (Nat.mul_comm n), <- blocks, map_flat_map.
  apply flat_map_ext'. intros j _. rewrite map_map. apply map_ext. intro i. nia.
Qed.
Lemma n_places_fresh k sh : n_places (mkNd k 0 (fstrides 1 sh)) = seq 0 (prod sh).
Proof.
  unfold n_places. cbn [n_off n_dims]. rewrite places_fresh, map_map.
  rewrite <- (map_id (seq 0 (prod sh))) at 2. apply map_ext. intro i. lia.
Qed.
Lemma map_fst_fstrides sh : forall k, map fst (fstrides k sh) = sh.
Proof. induction sh as [|n sh IH]; intro k; cbn; [reflexivity|]. rewrite IH. reflexivity. Qed.
Lemma places_length ds : length (places ds) = prod (map fst ds).
Proof.
  induction ds as [|[n s] ds IH]; [reflexivity|]. cbn [places map fst]. rewrite prod_cons.
  rewrite <- IH. clear IH. induction (places ds) as [|p l IHl]; [cbn; lia|].
  cbn [flat_map length]. rewrite app_length, map_length, seq_length, IHl. lia.
Qed.

(** The interior of a padded array *)
Lemma inner_places_from g ns : g <> 0 -> forall k,
  map (fun p => inner_off g (fstrides k (map (fun n => n + 2 * g) ns)) + p)
      (places (map (inner_dim g) (fstrides k (map (fun n => n + 2 * g) ns)))) = interior_from g k ns.
Proof.
  intro Hg. induction ns as [|n ns IH]; intro k; [reflexivity|].
  cbn [map fstrides interior_from places inner_dim fst snd].
  replace (g =? 0) with false by (symmetry; apply Nat.eqb_neq; assumption).
  replace (n + 2 * g - 2 * g) with n by lia.
  rewrite <- IH, flat_map_map, map_flat_map.
  apply flat_map_ext'. intros p _. rewrite map_map. apply map_ext. intro i.
  unfold inner_off. cbn [map fold_right snd]. lia.
Qed.
Lemma inner_places g sh k : g <> 0 -> sh <> [] ->
  n_places (inner_view g (mkNd k 0 (fstrides 1 (pad g sh)))) = interior g sh.
Proof.
  intros Hg Hs. destruct sh as [|m ns]; [congruence|].
  cbn [pad fstrides inner_view n_dims]. unfold n_places. cbn [n_off n_dims places interior].
  rewrite <- (inner_places_from g ns Hg m), flat_map_map, map_flat_map.
  replace (1 * m) with m by lia.
  apply flat_map_ext'. intros p _. rewrite map_map. apply map_ext. intro i. lia.
Qed.
Lemma inner_shape_from g ns : g <> 0 -> forall k,
  map fst (map (inner_dim g) (fstrides k (map (fun n => n + 2 * g) ns))) = ns.
Proof.
  intro Hg. induction ns as [|n ns IH]; intro k; [reflexivity|].
  cbn [map fstrides inner_dim fst].
  replace (g =? 0) with false by (symmetry; apply Nat.eqb_neq; assumption).
  rewrite IH. f_equal. lia.
Qed.
Lemma inner_shape g sh k : g <> 0 -> sh <> [] ->
  n_shape (inner_view g (mkNd k 0 (fstrides 1 (pad g sh)))) = sh.
Proof.
  intros Hg Hs. destruct sh as [|m ns]; [congruence|].
  cbn [pad fstrides inner_view n_dims]. unfold n_shape. cbn [n_dims map fst].
  rewrite inner_shape_from by assumption. reflexivity.
Qed.

(** Every place of the interior is [k * j] with [j] below the number of elements, and no place occurs twice. *)
Lemma interior_from_bound g ns : forall k p, In p (interior_from g k ns) ->
  exists j, p = k * j /\ j < prod (map (fun n => n + 2 * g) ns).
Proof.
  induction ns as [|n ns IH]; intros k p Hp.
  - cbn in Hp. destruct Hp as [<-|[]]. exists 0. cbn. lia.
  - cbn [interior_from] in Hp. apply in_flat_map in Hp. destruct Hp as (p' & Hp' & Hi).
    apply in_map_iff in Hi. destruct Hi as (i & <- & Hi). apply in_seq in Hi.
    destruct (IH _ _ Hp') as (j & -> & Hj).
    exists ((n + 2 * g) * j + (g + i)). cbn [map]. rewrite prod_cons. split; [nia|]. nia.
Qed.
Lemma nodup_flat_map {A B} (f : A -> list B) l :
  NoDup l -> (forall a, In a l -> NoDup (f a)) ->
  (forall a b x, In a l -> In b l -> In x (f a) -> In x (f b) -> a = b) -> NoDup (flat_map f l).
Proof.
  induction l as [|a l IH]; intros Hl Hf Hd; cbn [flat_map]; [constructor|].
  inversion Hl as [|? ? Ha Hl']; subst.
  assert (Hrest : NoDup (flat_map f l)).
  { apply IH; [assumption| |].
    - intros; apply Hf; right; assumption.
    - intros x y z Hx Hy; apply Hd; right; assumption. }
  assert (Hhead : NoDup (f a)) by (apply Hf; left; reflexivity).
  assert (Hdis : forall x, In x (f a) -> ~ In x (flat_map f l)).
  { intros x Hx Hin. apply in_flat_map in Hin. destruct Hin as (b & Hb & Hxb).
    assert (a = b) by (apply (Hd a b x); [left; reflexivity|right; assumption|assumption|assumption]).
    subst b. contradiction. }
  clear -Hrest Hhead Hdis. induction (f a) as [|x r IHr]; [assumption|]. cbn [app].
  inversion Hhead; subst. constructor.
  - intro Hin. apply in_app_iff in Hin. destruct Hin as [Hin|Hin]; [contradiction|].
    exact (Hdis x (or_introl eq_refl) Hin).
  - apply IHr; [assumption|]. intros y Hy. apply Hdis. right. assumption.
Qed.
Lemma interior_from_nodup g ns : forall k, k <> 0 -> NoDup (interior_from g k ns).
Proof.
  induction ns as [|n ns IH]; intros k Hk; cbn [interior_from].
  - constructor; [intros []|constructor].
  - destruct n as [|n].
    { replace (flat_map (fun p => map (fun i => p + (g + i) * k) (seq 0 0)) (interior_from g (k * (0 + 2 * g)) ns))
        with (@nil nat); [constructor|].
      induction (interior_from g (k * (0 + 2 * g)) ns); [reflexivity|assumption]. }
    apply nodup_flat_map.
    + apply IH. nia.
    + intros p _. apply FinFun.Injective_map_NoDup; [|apply seq_NoDup]. intros i j E. nia.
    + intros a b x Ha Hb Hxa Hxb.
      apply interior_from_bound in Ha. destruct Ha as (ja & -> & _).
      apply interior_from_bound in Hb. destruct Hb as (jb & -> & _).
      apply in_map_iff in Hxa. destruct Hxa as (i & <- & Hi). apply in_seq in Hi.
      apply in_map_iff in Hxb. destruct Hxb as (j & E & Hj). apply in_seq in Hj.
      assert (E' : (S n + 2 * g) * jb + (g + j) = (S n + 2 * g) * ja + (g + i)) by nia.
      assert (ja = jb); [|subst; reflexivity].
      apply (f_equal (fun z => z / (S n + 2 * g))) in E'.
      rewrite !(Nat.mul_comm (S n + 2 * g)), !Nat.div_add_l in E' by lia.
      rewrite !Nat.div_small in E' by lia. lia.
Qed.
Lemma interior_bound g sh : Forall (fun p => p < prod (pad g sh)) (interior g sh).
Proof.
  apply Forall_forall. intros p Hp. destruct sh as [|m ns].
  - cbn in Hp. destruct Hp as [<-|[]]. cbn. lia.
  - cbn [interior pad] in *. rewrite prod_cons. apply in_flat_map in Hp. destruct Hp as (p' & Hp' & Hi).
    apply in_map_iff in Hi. destruct Hi as (i & <- & Hi). apply in_seq in Hi.
    apply interior_from_bound in Hp'. destruct Hp' as (j & -> & Hj). nia.
Qed.
Lemma interior_nodup g sh : NoDup (interior g sh).
Proof.
  destruct sh as [|m ns]; cbn [interior]; [constructor; [intros []|constructor]|].
  destruct m as [|m].
  { replace (flat_map (fun p => map (fun i => p + i) (seq 0 0)) (interior_from g 0 ns)) with (@nil nat);
      [constructor|]. induction (interior_from g 0 ns); [reflexivity|assumption]. }
  apply nodup_flat_map.
  - apply interior_from_nodup. lia.
  - intros p _. apply FinFun.Injective_map_NoDup; [|apply seq_NoDup]. intros i j E. lia.
  - intros a b x Ha Hb Hxa Hxb.
    apply interior_from_bound in Ha. destruct Ha as (ja & -> & _).
    apply interior_from_bound in Hb. destruct Hb as (jb & -> & _).
    apply in_map_iff in Hxa. destruct Hxa as (i & <- & Hi). apply in_seq in Hi.
    apply in_map_iff in Hxb. destruct Hxb as (j & E & Hj). apply in_seq in Hj.
    assert (ja = jb); [|subst; reflexivity].
    apply (f_equal (fun z => z / (S m))) in E.
    rewrite !(Nat.mul_comm (S m)), !Nat.div_add_l in E by lia.
    rewrite !Nat.div_small in E by lia. lia.
Qed.
Lemma interior_length g sh : g <> 0 -> sh <> [] -> length (interior g sh) = prod sh.
Proof.
  intros Hg Hs. rewrite <- (inner_places g sh 0 Hg Hs). unfold n_places. rewrite map_length, places_length.
  rewrite <- (inner_shape g sh 0 Hg Hs) at 2. reflexivity.
Qed.

(** *** Blocks *)
Lemma replace_q_length p v b : length (replace_q p v b) = length b.
Proof. revert p. induction b as [|x b IH]; intros [|p]; cbn; congruence. Qed.
Lemma put_at_length ps : forall vs b, length (put_at ps vs b) = length b.
Proof.
  induction ps as [|p ps IH]; intros [|v vs] b; cbn; [reflexivity..|]. rewrite IH. apply replace_q_length.
Qed.
Lemma replace_q_nth p v b k : p < length b -> nth k (replace_q p v b) 0%Q = if k =? p then v else nth k b 0%Q.
Proof.
  revert p k. induction b as [|x b IH]; intros p k H; [cbn in H; lia|].
  destruct p as [|p], k as [|k]; cbn [replace_q nth]; try reflexivity.
  cbn in H. rewrite IH by lia. reflexivity.
Qed.
Lemma put_at_other ps : forall vs b k, ~ In k ps -> Forall (fun p => p < length b) ps ->
  nth k (put_at ps vs b) 0%Q = nth k b 0%Q.
Proof.
  induction ps as [|p ps IH]; intros [|v vs] b k Hk Hb; cbn [put_at]; try reflexivity.
  apply Forall_cons_iff in Hb. destruct Hb as (Hp & Hb).
  rewrite IH.
  - rewrite replace_q_nth by assumption. destruct (k =? p) eqn:E; [|reflexivity].
    apply Nat.eqb_eq in E. subst. exfalso. apply Hk. left. reflexivity.
  - intro H. apply Hk. right. assumption.
  - rewrite replace_q_length. assumption.
Qed.
Lemma get_put ps : forall vs b, NoDup ps -> Forall (fun p => p < length b) ps -> length vs = length ps ->
  get_at ps (put_at ps vs b) = vs.
Proof.
  induction ps as [|p ps IH]; intros [|v vs] b Hn Hb Hl; try discriminate; [reflexivity|].
  inversion Hn; subst. apply Forall_cons_iff in Hb. destruct Hb as (Hp & Hb).
  cbn [put_at get_at map]. f_equal.
  - rewrite put_at_other by (rewrite ?replace_q_length; assumption).
    rewrite replace_q_nth, Nat.eqb_refl by assumption. reflexivity.
  - apply IH; [assumption|rewrite replace_q_length; assumption|cbn in Hl; lia].
Qed.
Lemma get_at_length ps b : length (get_at ps b) = length ps.
Proof. apply map_length. Qed.
Lemma get_at_all b : get_at (seq 0 (length b)) b = b.
Proof.
  unfold get_at. induction b as [|x b IH]; [reflexivity|]. cbn [length seq map nth].
  rewrite <- seq_shift, map_map. f_equal. exact IH.
Qed.

Lemma set_block_length k b h : length (set_block k b h) = length h.
Proof. revert k. induction h as [|x h IH]; intros [|k]; cbn; congruence. Qed.
Lemma set_block_same k b h : k < length h -> block (set_block k b h) k = b.
Proof.
  unfold block. revert k. induction h as [|x h IH]; intros k H; [cbn in H; lia|].
  destruct k as [|k]; cbn; [reflexivity|]. apply IH. cbn in H. lia.
Qed.
Lemma set_block_other k b h j : j <> k -> block (set_block k b h) j = block h j.
Proof.
  unfold block. revert k j. induction h as [|x h IH]; intros k j H; [destruct k; reflexivity|].
  destruct k as [|k], j as [|j]; cbn; try reflexivity; [lia|]. apply IH. lia.
Qed.
Lemma block_app h l k : k < length h -> block (h ++ l) k = block h k.
Proof. intro H. unfold block. apply app_nth1. assumption. Qed.
Lemma block_last h b : block (h ++ [b]) (length h) = b.
Proof. unfold block. rewrite app_nth2, Nat.sub_diag by lia. reflexivity. Qed.

(** *** Lists with one element replaced *)
Lemma nth_replaced {A} (l : list A) x a k : x < length l ->
  nth_error (firstn x l ++ a :: skipn (S x) l) k = if k =? x then Some a else nth_error l k.
Proof.
  revert x k. induction l as [|b l IH]; intros x k H; [cbn in H; lia|].
  destruct x as [|x], k as [|k]; cbn [firstn skipn app nth_error Nat.eqb]; try reflexivity.
  cbn in H. apply IH. lia.
Qed.
Lemma length_replaced {A} (l : list A) x a : x < length l -> length (firstn x l ++ a :: skipn (S x) l) = length l.
Proof. intro H. rewrite app_length. cbn [length]. rewrite firstn_length, skipn_length. lia. Qed.
Lemma nth_error_lt {A} (l : list A) x a : nth_error l x = Some a -> x < length l.
Proof. intro H. apply nth_error_Some. congruence. Qed.
Lemma nth_error_snoc {A} (l : list A) a k :
  nth_error (l ++ [a]) k = if k =? length l then Some a else nth_error l k.
Proof.
  destruct (k =? length l) eqn:E.
  - apply Nat.eqb_eq in E. subst. rewrite nth_error_app2, Nat.sub_diag by lia. reflexivity.
  - apply Nat.eqb_neq in E. destruct (Nat.lt_ge_cases k (length l)).
    + apply nth_error_app1. assumption.
    + rewrite nth_error_app2 by lia. destruct (k - length l) as [|j] eqn:Ej; [lia|].
      cbn. destruct j; cbn; symmetry; apply nth_error_None; lia.
Qed.

(** *** Arrays that hold the values of a solution *)
Definition good (h : heap) (q : nd) (u : value) : Prop :=
  n_shape q = u_shape u /\ u_shape u <> [] /\ n_buf q < length h /\ NoDup (n_places q) /\
  Forall (fun p => p < length (block h (n_buf q))) (n_places q) /\ read h q = u_vals u.
Definition good_bc (h : heap) (b : nd) (g : nat) (sh : list nat) : Prop :=
  n_dims b = fstrides 1 (pad g sh) /\ n_off b = 0 /\ n_buf b < length h /\
  length (block h (n_buf b)) = prod (pad g sh).

Lemma good_length h q u : good h q u -> length (u_vals u) = prod (u_shape u).
Proof.
  intros (Hs & _ & _ & _ & _ & <-). unfold read. rewrite get_at_length. unfold n_places.
  rewrite map_length, places_length, <- Hs. reflexivity.
Qed.
Lemma good_places h q u : good h q u -> length (n_places q) = prod (u_shape u).
Proof. intros (Hs & _). unfold n_places. rewrite map_length, places_length, <- Hs. reflexivity. Qed.
Lemma good_frame h h' q u : good h q u -> length h <= length h' ->
  block h' (n_buf q) = block h (n_buf q) -> good h' q u.
Proof.
  intros (H1 & H2 & H3 & H4 & H5 & H6) Hl Hb. unfold good. rewrite Hb. repeat split; try assumption; [lia|].
  unfold read. rewrite Hb. exact H6.
Qed.
Lemma good_bc_frame h h' b g sh : good_bc h b g sh -> length h <= length h' ->
  length (block h' (n_buf b)) = length (block h (n_buf b)) -> good_bc h' b g sh.
Proof. intros (H1 & H2 & H3 & H4) Hl Hb. repeat split; try assumption; lia. Qed.

Lemma fresh_values sh vs : length vs = prod sh -> firstn (prod sh) (vs ++ repeat 0%Q (prod sh)) = vs.
Proof. intro H. rewrite firstn_app, <- H, firstn_all, Nat.sub_diag. cbn [firstn]. apply app_nil_r. Qed.
Lemma good_new h sh vs : sh <> [] -> length vs = prod sh ->
  let (h', a) := new_array h sh vs in
  h' = h ++ [vs] /\ n_buf a = length h /\ good h' a (mkValue sh vs) /\ f_contiguous a = true.
Proof.
  intros Hs Hl. unfold new_array. rewrite fresh_values by assumption.
  split; [reflexivity|]. split; [reflexivity|]. split.
  - unfold good. rewrite n_places_fresh. cbn [n_buf u_shape u_vals]. rewrite app_length. cbn [length].
    rewrite block_last. unfold n_shape. cbn [n_dims]. rewrite map_fst_fstrides.
    repeat split; try assumption; try lia.
    + apply seq_NoDup.
    + apply Forall_forall. intros p Hp. apply in_seq in Hp. lia.
    + unfold read. rewrite n_places_fresh. cbn [n_buf]. rewrite block_last, <- Hl. apply get_at_all.
  - unfold f_contiguous. cbn [n_dims]. apply Bool.orb_true_iff. right.
    assert (K : forall l k, strides_contiguous k (fstrides k l) = true).
    { clear. induction l as [|n l IH]; intro k; [reflexivity|]. cbn [fstrides strides_contiguous].
      destruct (n =? 1) eqn:E.
      - apply Nat.eqb_eq in E. subst. rewrite Nat.mul_1_r. apply IH.
      - rewrite Nat.eqb_refl. cbn. apply IH. }
    apply K.
Qed.

Lemma write_block h q vs : n_buf q < length h ->
  block (write h q vs) (n_buf q) = put_at (n_places q) vs (block h (n_buf q)).
Proof. intro H. unfold write. apply set_block_same. assumption. Qed.
Lemma write_other h q vs k : k <> n_buf q -> block (write h q vs) k = block h k.
Proof. intro H. unfold write. apply set_block_other. assumption. Qed.
Lemma write_length h q vs : length (write h q vs) = length h.
Proof. apply set_block_length. Qed.
Lemma write_sizes h q vs k : length (block (write h q vs) k) = length (block h k).
Proof.
  destruct (Nat.eq_dec k (n_buf q)) as [->|N]; [|rewrite write_other by assumption; reflexivity].
  destruct (Nat.lt_ge_cases (n_buf q) (length h)) as [L|L].
  - rewrite write_block by assumption. apply put_at_length.
  - unfold block. rewrite !nth_overflow; [reflexivity|lia|rewrite write_length; lia].
Qed.
Lemma good_write h q u vs : good h q u -> length vs = prod (u_shape u) ->
  good (write h q vs) q (mkValue (u_shape u) vs).
Proof.
  intros G Hl. pose proof (good_places _ _ _ G) as HL. destruct G as (H1 & H2 & H3 & H4 & H5 & H6).
  unfold good. rewrite write_length, write_sizes. repeat split; try assumption.
  unfold read. rewrite write_block by assumption. apply get_put; try assumption. cbn [u_vals]. lia.
Qed.

Lemma broadcast_same l : forall l', map fst l = map fst l' -> broadcast l l' = Some l.
Proof.
  induction l as [|[n s] l IH]; intros [|[m s'] l'] H; try discriminate; [reflexivity|].
  cbn [map fst] in H. injection H as -> H. cbn [broadcast]. rewrite IH by assumption.
  rewrite Nat.eqb_refl. reflexivity.
Qed.
Lemma assign_same h dst src : n_shape dst = n_shape src -> assign h dst src = Some (write h dst (read h src)).
Proof.
  intro H. unfold assign. rewrite broadcast_same by (symmetry; exact H). destruct src; reflexivity.
Qed.

(** *** One classic step, seen from the solution that is stepped *)
Lemma bc_shape h b g sh : good_bc h b g sh -> b = mkNd (n_buf b) 0 (fstrides 1 (pad g sh)).
Proof. intros (H1 & H2 & _). destruct b; cbn in *. congruence. Qed.

Lemma view_buf g b : n_buf (inner_view g b) = n_buf b.
Proof. unfold inner_view. destruct (n_dims b); reflexivity. Qed.

Lemma good_view h b g sh : good_bc h b g sh -> g <> 0 -> sh <> [] ->
  good h (inner_view g b) (mkValue sh (get_at (interior g sh) (block h (n_buf b)))).
Proof.
  intros G Hg Hs. pose proof G as (_ & _ & Hb & Hl). unfold good. rewrite view_buf.
  rewrite (bc_shape _ _ _ _ G) at 1. cbn [u_shape u_vals].
  rewrite inner_shape by assumption.
  assert (P : n_places (inner_view g b) = interior g sh).
  { rewrite (bc_shape _ _ _ _ G). apply inner_places; assumption. }
  rewrite P. repeat split; try assumption.
  - apply interior_nodup.
  - rewrite Hl. apply interior_bound.
  - unfold read. rewrite P, view_buf. reflexivity.
Qed.

Lemma step_heap h q b g u before hyp after :
  good h q u -> good_bc h b g (u_shape u) -> g <> 0 ->
  keeps_size (prod (u_shape u)) before -> fills_ghosts g (u_shape u) hyp ->
  keeps_size (prod (u_shape u)) after ->
  exists h2,
    assign (write h q (before (read h q))) (inner_view g b) q = Some h2 /\
    let h3 := set_block (n_buf b) (hyp (block h2 (n_buf b))) h2 in
    let h4 := write h3 (inner_view g b) (after (read h3 (inner_view g b))) in
    length h4 = length h /\ (forall k, length (block h4 k) = length (block h k)) /\
    (forall k, k <> n_buf q -> k <> n_buf b -> block h4 k = block h k) /\
    good h4 (inner_view g b)
      (mkValue (u_shape u) (after (hyperbolic g (u_shape u) hyp (before (u_vals u))))).
Proof.
  intros G B Hg Kb (Kh & Dh) Ka.
  pose proof (good_length _ _ _ G) as HL.
  assert (Hs : u_shape u <> []) by (destruct G as (_ & H & _); exact H).
  assert (Rq : read h q = u_vals u) by (destruct G as (_ & _ & _ & _ & _ & H); exact H).
  set (u1 := before (u_vals u)).
  assert (L1 : length u1 = prod (u_shape u)) by (apply Kb; assumption).
  set (h1 := write h q u1).
  assert (G1 : good h1 q (mkValue (u_shape u) u1)) by (apply good_write; assumption).
  assert (B1 : good_bc h1 b g (u_shape u)).
  { apply (good_bc_frame h); [assumption|unfold h1; rewrite write_length; lia|apply write_sizes]. }
  pose proof (good_view _ _ _ _ B1 Hg Hs) as V1.
  assert (S1 : n_shape (inner_view g b) = n_shape q).
  { destruct V1 as (H & _). destruct G as (H' & _). rewrite H, H'. reflexivity. }
  assert (R1 : read h1 q = u1) by (destruct G1 as (_ & _ & _ & _ & _ & H); exact H).
  rewrite Rq. fold u1. fold h1.
  exists (write h1 (inner_view g b) u1). split; [rewrite assign_same, R1 by assumption; reflexivity|].
  set (h2 := write h1 (inner_view g b) u1). cbv zeta.
  set (h3 := set_block (n_buf b) (hyp (block h2 (n_buf b))) h2).
  assert (P : n_places (inner_view g b) = interior g (u_shape u)).
  { rewrite (bc_shape _ _ _ _ B). apply inner_places; assumption. }
  assert (L2 : length h2 = length h) by (unfold h2, h1; rewrite !write_length; reflexivity).
  assert (Z2 : forall k, length (block h2 k) = length (block h k)) by (intro k; unfold h2, h1; rewrite !write_sizes; reflexivity).
  pose proof B as (_ & _ & Bb & Bl).
  assert (E2 : block h2 (n_buf b) = put_at (interior g (u_shape u)) u1 (block h1 (n_buf b))).
  { unfold h2. rewrite <- (view_buf g b). rewrite write_block, P by (rewrite view_buf; unfold h1; rewrite write_length; lia).
    reflexivity. }
  set (zero := repeat 0%Q (prod (pad g (u_shape u)))).
  assert (Lz : length zero = prod (pad g (u_shape u))) by apply repeat_length.
  assert (E3 : hyp (block h2 (n_buf b)) = hyp (put_at (interior g (u_shape u)) u1 zero)).
  { apply Dh; [rewrite Z2; assumption|rewrite put_at_length; assumption|].
    rewrite E2, !get_put; try reflexivity; try apply interior_nodup.
    - rewrite Lz. apply interior_bound.
    - rewrite interior_length; assumption.
    - unfold h1. rewrite write_sizes, Bl. apply interior_bound.
    - rewrite interior_length; assumption. }
  assert (L3 : length h3 = length h) by (unfold h3; rewrite set_block_length; assumption).
  assert (F3 : block h3 (n_buf b) = hyp (put_at (interior g (u_shape u)) u1 zero)).
  { unfold h3. rewrite set_block_same, E3 by lia. reflexivity. }
  assert (Z3 : forall k, length (block h3 k) = length (block h k)).
  { intro k. destruct (Nat.eq_dec k (n_buf b)) as [->|N].
    - rewrite F3, Bl. apply Kh. rewrite put_at_length. assumption.
    - unfold h3. rewrite set_block_other by assumption. apply Z2. }
  assert (B3 : good_bc h3 b g (u_shape u)) by (apply (good_bc_frame h); [assumption|lia|apply Z3]).
  pose proof (good_view _ _ _ _ B3 Hg Hs) as V3.
  assert (R3 : read h3 (inner_view g b) = hyperbolic g (u_shape u) hyp u1).
  { destruct V3 as (_ & _ & _ & _ & _ & H). rewrite H. cbn [u_vals]. rewrite F3. reflexivity. }
  rewrite R3.
  split; [rewrite write_length; assumption|]. split; [intro k; rewrite write_sizes; apply Z3|]. split.
  - intros k N1 N2. rewrite write_other by (rewrite view_buf; assumption).
    unfold h3. rewrite set_block_other by assumption.
    unfold h2. rewrite write_other by (rewrite view_buf; assumption).
    unfold h1. apply write_other. assumption.
  - apply (good_write _ _ _ _ V3). cbn [u_shape]. apply Ka.
    unfold hyperbolic. rewrite get_at_length. apply interior_length; assumption.
Qed.
