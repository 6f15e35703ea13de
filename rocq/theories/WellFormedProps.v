(** C137: whatever the files contain, a frame that can be read is well formed. *)
From Coq Require Import Ascii String.
From Verif Require Import Base FormatModel AsciiModel BinaryModel CrashProofs.
From Verif Require HdfModel HdfSpec.
Open Scope Q_scope.

(** A dimension that a Dimension object can be, of a grid with the axes x, y, z *)
Definition proper_dim (d : dimension) : Prop := (0 < d_n d)%Z /\ d_lower d < d_upper d.
Definition proper_patch (num_dim : nat) (p : patch) : Prop :=
  (1 <= num_dim <= 3)%nat /\ map d_name (p_dims p) = firstn num_dim [lit "x"; lit "y"; lit "z"] /\
  length (p_dims p) = num_dim /\ Forall proper_dim (p_dims p).

Lemma read_many_length {A} (f : handle -> result (A * handle)) k : forall h l h', read_many f k h = Ok (l, h') -> length l = k.
Proof.
  induction k as [|k IH]; intros h l h' E; cbn [read_many] in E; [assert (l = []) by congruence; subst; reflexivity|].
  destruct (f h) as [(a & h1)|e]; [|discriminate E]. cbn [bind] in E.
  destruct (read_many f k h1) as [(r & h2)|e] eqn:K; [|discriminate E]. cbn [bind] in E. assert (l = a :: r) by congruence. subst l.
  cbn [length]. f_equal. exact (IH h1 r h2 K).
Qed.
Lemma read_many_all {A} (f : handle -> result (A * handle)) (P : A -> Prop) : (forall h a h', f h = Ok (a, h') -> P a) ->
  forall k h l h', read_many f k h = Ok (l, h') -> Forall P l.
Proof.
  intros H. induction k as [|k IH]; intros h l h' E; cbn [read_many] in E; [assert (l = []) by congruence; subst; constructor|].
  destruct (f h) as [(a & h1)|e] eqn:F; [|discriminate E]. cbn [bind] in E.
  destruct (read_many f k h1) as [(r & h2)|e] eqn:K; [|discriminate E]. cbn [bind] in E. assert (l = a :: r) by congruence. subst l.
  constructor; [exact (H h a h1 F)|exact (IH h1 r h2 K)].
Qed.
Lemma make_dims_proper ns : forall names lows ds dims, length lows = length ns -> length ds = length ns -> make_dims names ns lows ds = Ok dims ->
  Forall proper_dim dims /\ length dims = length ns /\ map d_name dims = firstn (length ns) names.
Proof.
  induction ns as [|n ns IH]; intros names lows ds dims L1 L2 E.
  - assert (K : Ok [] = Ok dims) by (destruct names; exact E). injection K as <-. split; [constructor|]. split; reflexivity.
  - destruct lows as [|lo lows]; [discriminate L1|]. destruct ds as [|d ds]; [discriminate L2|].
    destruct names as [|name names]; [discriminate E|]. cbn [make_dims] in E. unfold new_dimension in E.
    destruct ((0 <? n)%Z && qltb lo (lo + inject_Z n * d))%bool eqn:V; cbn [bind] in E; [|discriminate E].
    destruct (make_dims names ns lows ds) as [r|e] eqn:M; cbn [bind] in E; [|discriminate E].
    assert (dims = mkDimn lo (lo + inject_Z n * d) n name :: r) by congruence. subst dims.
    cbn [length] in L1, L2. destruct (IH names lows ds r ltac:(lia) ltac:(lia) M) as (K1 & K2 & K3).
    apply andb_true_iff in V. destruct V as [V1 V2]. split; [constructor; [split; [apply Z.ltb_lt, V1|apply qltb_lt, V2]|exact K1]|].
    split; [cbn [length]; congruence|]. cbn [map length firstn d_name]. f_equal. exact K3.
Qed.
Lemma header_proper nd h p h' : read_patch_header nd h = Ok (p, h') ->
  Forall proper_dim (p_dims p) /\ length (p_dims p) = nd /\ map d_name (p_dims p) = firstn nd [lit "x"; lit "y"; lit "z"].
Proof.
  unfold read_patch_header. intros E.
  destruct (read_int h) as [(i & h1)|]; [|discriminate E]. cbn [bind] in E.
  destruct (read_int h1) as [(l & h2)|]; [|discriminate E]. cbn [bind] in E.
  destruct (read_many read_int nd h2) as [(ns & h3)|] eqn:E1; [|discriminate E]. cbn [bind] in E.
  destruct (read_many read_float nd h3) as [(lows & h4)|] eqn:E2; [|discriminate E]. cbn [bind] in E.
  destruct (read_many read_float nd h4) as [(ds & h5)|] eqn:E3; [|discriminate E]. cbn [bind] in E.
  apply read_many_length in E1, E2, E3. subst nd.
  destruct (make_dims _ ns lows ds) as [dims|] eqn:M; [|discriminate E]. cbn [bind] in E.
  assert (p = mkPatch i l dims) by congruence. subst p. cbn [p_dims].
  exact (make_dims_proper ns _ lows ds dims E2 E3 M).
Qed.
Lemma array_range p nv h a : read_array p nv h = Ok a -> (1 <= length (p_dims p) <= 3)%nat.
Proof.
  unfold read_array. destruct ((1 <=? length (p_dims p))%nat && (length (p_dims p) <=? 3)%nat)%bool eqn:C; [|discriminate].
  intros _. apply andb_true_iff in C. destruct C as [C1 C2]. apply Nat.leb_le in C1, C2. lia.
Qed.

(** ** ASCII frames *)
(** One to three axes x, y, z with cells and an extent; time and numbers of fields are the same in all states. *)
Record proper_state {D : Type} (num_dim : nat) (t : Q) (num_eqn num_aux : nat) (data : option D) (s : @state D) : Prop := {
  ps_patch : proper_patch num_dim (s_patch s);
  ps_t : s_t s = t;
  ps_num_eqn : s_num_eqn s = num_eqn;
  ps_num_aux : s_num_aux s = num_aux;
  ps_data : s_data s = data }.
Lemma state_proper {D : Type} f (data : option D) h s h' : read_state f data h = Ok (s, h') ->
  proper_state (Z.to_nat (f_num_dim f)) (f_t f) (Z.to_nat (f_num_eqn f)) (Z.to_nat (f_num_aux f)) data s.
Proof.
  unfold read_state. destruct (read_patch_header (Z.to_nat (f_num_dim f)) h) as [(p & h1)|] eqn:H; [|discriminate]. cbn [bind].
  destruct (f_num_eqn f <? 0)%Z; [discriminate|].
  destruct (read_array p (Z.to_nat (f_num_eqn f)) h1) as [(q & h2)|] eqn:A; [|discriminate]. cbn [bind]. intros E.
  assert (s = mkState p (f_t f) (Z.to_nat (f_num_eqn f)) q 0 None (Z.to_nat (f_num_aux f)) None data) by congruence. subst s.
  destruct (header_proper _ _ _ _ H) as (K1 & K2 & K3). apply array_range in A. rewrite K2 in A.
  constructor; try reflexivity. cbn [s_patch]. split; [exact A|]. split; [exact K3|]. split; [exact K2|exact K1].
Qed.
Lemma aux_proper {D : Type} nd t ne na (data : option D) k1 k2 : forall ss h l, read_aux_states k1 k2 ss h = Ok l ->
  Forall (proper_state nd t ne na data) ss -> Forall (proper_state nd t ne na data) l /\ length l = length ss.
Proof.
  induction ss as [|s ss IH]; intros h l E F; cbn [read_aux_states] in E; [assert (l = []) by congruence; subst; split; [constructor|reflexivity]|].
  destruct (read_patch_header k1 h) as [(p & h1)|]; [|discriminate E]. cbn [bind] in E.
  destruct (negb _); [discriminate E|]. destruct (same_dims _ _) as [[]|]; [|discriminate E]. cbn [bind] in E.
  destruct (read_array (s_patch s) k2 h1) as [(a & h2)|]; [|discriminate E]. cbn [bind] in E.
  destruct (read_aux_states k1 k2 ss h2) as [r|] eqn:R; [|discriminate E]. cbn [bind] in E.
  apply Forall_cons_iff in F. destruct F as [F1 F2]. destruct (IH h2 r R F2) as [G1 G2].
  set (s' := mkState (s_patch s) (s_t s) (s_num_eqn s) (s_q s) (s_mp s) (s_p s) (s_num_aux s) (Some a) (s_data s)) in E.
  assert (l = s' :: r) by congruence. subst l. split; [|cbn [length]; congruence]. constructor; [|exact G1].
  destruct F1 as [P1 P2 P3 P4 P5]. constructor; assumption.
Qed.
Theorem C137_ascii {D : Type} (fs : @files D) path prefix frame read_aux sol : read fs path prefix frame read_aux [] = Ok sol ->
  so_states sol <> [] /\ exists t num_eqn num_aux data, Forall (proper_state (so_num_dim sol) t num_eqn num_aux data) (so_states sol).
Proof.
  unfold read. destruct (match fs (read_name path prefix "pkl" frame) with Some (PickleFile d) => Ok d | Some _ => Err BadValue | None => Ok None end) as [data|]; [|discriminate].
  cbn [bind]. destruct (read_t fs path prefix frame) as [f|]; [|discriminate]. cbn [bind].
  destruct (open_text fs (read_name path prefix "q" frame)) as [h|]; [|discriminate]. cbn [bind].
  destruct (read_many (read_state f data) (Z.to_nat (f_nstates f)) h) as [(new & h')|] eqn:M; [|discriminate]. cbn [bind].
  pose proof (read_many_all _ _ (fun h a h' => state_proper f data h a h') _ _ _ _ M) as F.
  destruct new as [|n0 new]; [discriminate|]. cbn [app].
  pose proof (ps_patch _ _ _ _ _ _ (Forall_inv F)) as (_ & _ & L & _). rewrite L.
  assert (PLAIN : forall so, Ok (mkSolution (n0 :: new) (Z.to_nat (f_num_dim f))) = Ok so -> so_states so <> [] /\
     exists t num_eqn num_aux data, Forall (proper_state (so_num_dim so) t num_eqn num_aux data) (so_states so)).
  { intros so E. assert (so = mkSolution (n0 :: new) (Z.to_nat (f_num_dim f))) by congruence. subst so. split; [discriminate|].
    exists (f_t f), (Z.to_nat (f_num_eqn f)), (Z.to_nat (f_num_aux f)), data. exact F. }
  destruct ((0 <? s_num_aux n0)%nat && read_aux)%bool; [|apply PLAIN].
  destruct (match fs (read_name path prefix "a" frame) with Some _ => _ | None => _ end) as [name|]; [|apply PLAIN].
  destruct (open_text fs name) as [ha|]; [|discriminate]. cbn [bind].
  destruct (read_aux_states _ _ (n0 :: new) ha) as [l|] eqn:A; [|discriminate]. cbn [bind]. intros E.
  assert (sol = mkSolution l (Z.to_nat (f_num_dim f))) by congruence. subst sol. cbn [so_states so_num_dim].
  destruct (aux_proper _ _ _ _ _ _ _ _ _ _ A F) as [G1 G2]. split; [destruct l; [discriminate G2|discriminate]|].
  exists (f_t f), (Z.to_nat (f_num_eqn f)), (Z.to_nat (f_num_aux f)), data. exact G1.
Qed.
Print Assumptions C137_ascii.

(** A header of one cell between 0 and 1/2 is accepted, one without cells or with a negative cell width is not. *)
Definition head_with (n width : string) : handle :=
  map lit ["1 patch_number"; "1 AMR_level"; String.append n " mx"; "0.0 xlow"; String.append width " dx"; ""]%string.
Example C137_case :
  match read_patch_header 1 (head_with "1" "0.5") with Ok (p, _) => map d_n (p_dims p) = [1%Z] | Err _ => False end /\
  read_patch_header 1 (head_with "0" "0.5") = Err AssertFails /\ read_patch_header 1 (head_with "1" "-0.5") = Err AssertFails.
Proof. split; [vm_compute; reflexivity|]. split; vm_compute; reflexivity. Qed.

(** ** Binary frames *)
Definition array_of_grid (p : patch) (a : array) : Prop := exists n, a_shape a = n :: map d_n (p_dims p).
Lemma cut_len_back g n : (0 <= g)%Z -> (0 < g)%Z -> (0 < n)%Z -> cut_len g (n + 2 * g) = n.
Proof. intros H0 H1 H2. unfold cut_len. destruct (Z.eqb_spec g 0); lia. Qed.
Lemma cut_shape g p num_var (v : list Z -> Q) : (0 < g)%Z -> Forall proper_dim (p_dims p) ->
  array_of_grid p (cut g (mkArray (num_var :: map (fun n => n + 2 * g)%Z (map d_n (p_dims p))) v)).
Proof.
  intros Hg F. exists num_var. unfold cut. cbn [a_shape]. f_equal. rewrite map_map.
  induction F as [|d l [P _] _ IH]; [reflexivity|]. cbn [map]. rewrite cut_len_back by lia. f_equal. exact IH.
Qed.
Definition proper_bstate (num_dim : nat) (t : Q) (s : bstate) : Prop :=
  proper_patch num_dim (b_patch s) /\ b_t s = t /\ array_of_grid (b_patch s) (b_q s).
Lemma next_shape data start nv g ns a stop : next_array data start nv g ns = Ok (a, stop) ->
  (0 <= g)%Z /\ exists v, a = mkArray (nv :: map (fun n => n + 2 * g)%Z ns) v.
Proof.
  unfold next_array. destruct (Z.ltb_spec g 0) as [|Hg]; [discriminate|]. unfold reshape_F.
  destruct (Z.eqb _ _); [|discriminate]. cbn [bind]. intros E. split; [exact Hg|]. eexists. assert (K := f_equal (fun r => match r with Ok (x, _) => x | Err _ => a end) E). cbv beta iota in K. symmetry. exact K.
Qed.
Lemma no_ghost_shape p nv v : array_of_grid p (mkArray (nv :: map (fun n => n + 2 * 0)%Z (map d_n (p_dims p))) v).
Proof. exists nv. cbn [a_shape]. f_equal. rewrite <- (map_id (map d_n (p_dims p))) at 2. apply map_ext. intros n. lia. Qed.
Lemma bstate_proper f data h start s h' stop : read_bstate f data h start = Ok (s, h', stop) ->
  proper_bstate (Z.to_nat (f_num_dim f)) (f_t f) s /\ (f_num_ghost f = 0%Z \/ (0 < f_num_ghost f)%Z).
Proof.
  unfold read_bstate. destruct (read_patch_header (Z.to_nat (f_num_dim f)) h) as [(p & h1)|] eqn:H; [|discriminate]. cbn [bind].
  destruct (next_array data start (f_num_eqn f) (f_num_ghost f) (map d_n (p_dims p))) as [(a & st)|] eqn:N; [|discriminate]. cbn [bind].
  destruct ((1 <=? length (p_dims p))%nat && (length (p_dims p) <=? 3)%nat)%bool eqn:C; [|discriminate].
  apply andb_true_iff in C. destruct C as [C1 C2]. apply Nat.leb_le in C1, C2.
  destruct (header_proper _ _ _ _ H) as (K1 & K2 & K3). destruct (next_shape _ _ _ _ _ _ _ N) as (Hg & v & ->). intros E.
  assert (K := f_equal (fun r => match r with Ok (x, _, _) => x | Err _ => s end) E). cbv beta iota in K. rewrite <- K. split; [|lia].
  split; [cbn [b_patch]; split; [lia|]; split; [exact K3|]; split; [exact K2|exact K1]|]. split; [reflexivity|]. cbn [b_patch b_q].
  destruct (Z.eqb_spec (f_num_ghost f) 0) as [E0|N0]; [rewrite E0; apply no_ghost_shape|apply cut_shape; [lia|exact K1]].
Qed.
Lemma bstates_proper f data : forall k h start l, read_bstates f data k h start = Ok l -> Forall (proper_bstate (Z.to_nat (f_num_dim f)) (f_t f)) l.
Proof.
  induction k as [|k IH]; intros h start l E; cbn [read_bstates] in E; [assert (l = []) by congruence; subst; constructor|].
  destruct (read_bstate f data h start) as [((s & h1) & stop)|] eqn:B; [|discriminate E]. cbn [bind] in E.
  destruct (read_bstates f data k h1 stop) as [r|] eqn:R; [|discriminate E]. cbn [bind] in E. assert (l = s :: r) by congruence. subst l.
  constructor; [exact (proj1 (bstate_proper _ _ _ _ _ _ _ B))|exact (IH _ _ _ R)].
Qed.
Lemma baux_proper g nd t data : forall ss start l, read_baux g data ss start = Ok l -> Forall (proper_bstate nd t) ss ->
  Forall (proper_bstate nd t) l /\ length l = length ss.
Proof.
  induction ss as [|s ss IH]; intros start l E F; cbn [read_baux] in E; [assert (l = []) by congruence; subst; split; [constructor|reflexivity]|].
  destruct (next_array data start (b_num_aux s) g (map d_n (p_dims (b_patch s)))) as [(a & stop)|]; [|discriminate E]. cbn [bind] in E.
  destruct (read_baux g data ss stop) as [r|] eqn:R; [|discriminate E]. cbn [bind] in E.
  apply Forall_cons_iff in F. destruct F as [F1 F2]. destruct (IH stop r R F2) as [G1 G2].
  set (s' := mkBState (b_patch s) (b_t s) (b_q s) (b_num_aux s) (Some (cut g a))) in E. assert (l = s' :: r) by congruence. subst l.
  split; [|cbn [length]; congruence]. constructor; [exact F1|exact G1].
Qed.
Theorem C137_binary {D : Type} (fs : @files D) path prefix frame fmt read_aux l : binary_read fs path prefix frame fmt read_aux = Ok l ->
  l <> [] /\ exists num_dim t, Forall (proper_bstate num_dim t) l.
Proof.
  unfold binary_read. destruct (read_t fs path prefix frame) as [f|]; [|discriminate]. cbn [bind].
  destruct (from_file fs _ fmt) as [data|]; [|discriminate]. cbn [bind].
  destruct (open_text fs _) as [h|]; [|discriminate]. cbn [bind].
  destruct (read_bstates f data (Z.to_nat (f_nstates f)) h 0) as [ss|] eqn:B; [|discriminate]. cbn [bind].
  pose proof (bstates_proper _ _ _ _ _ _ B) as F. destruct ss as [|s0 ss]; [discriminate|].
  assert (PLAIN : Ok (s0 :: ss) = Ok l -> l <> [] /\ exists num_dim t, Forall (proper_bstate num_dim t) l).
  { intros E. assert (l = s0 :: ss) by congruence. subst l. split; [discriminate|]. eexists. eexists. exact F. }
  destruct (_ && _)%bool; [|exact PLAIN].
  destruct (match fs (read_name path prefix "a" frame) with Some _ => _ | None => _ end) as [name|]; [|exact PLAIN].
  destruct (from_file fs name fmt) as [d2|]; [|discriminate]. cbn [bind]. intros E.
  destruct (baux_proper _ _ _ _ _ _ _ E F) as [G1 G2]. split; [destruct l; [discriminate G2|discriminate]|]. eexists. eexists. exact G1.
Qed.
Print Assumptions C137_binary.

(** ** HDF5 frames *)
Import HdfModel HdfSpec.
Definition proper_hdf (s : HdfModel.state) : Prop :=
  Forall (fun d => (0 < HdfModel.d_n d)%Z /\ HdfModel.d_lower d < HdfModel.d_upper d) (HdfModel.p_dims (HdfModel.s_patch s)) /\
  HdfModel.p_index (HdfModel.s_patch s) <> None /\ HdfModel.p_level (HdfModel.s_patch s) <> None /\
  fits_grid s (HdfModel.s_q s) /\
  match HdfModel.s_aux s with Some a => fits_grid s a | None => True end.
Lemma hdf_dims g : forall names ds, read_dims g names = HdfModel.Ok ds ->
  Forall (fun d => (0 < HdfModel.d_n d)%Z /\ HdfModel.d_lower d < HdfModel.d_upper d) ds.
Proof.
  induction names as [|n names IH]; intros ds E; cbn [read_dims] in E; [assert (ds = []) by congruence; subst; constructor|].
  destruct (read_dim g n) as [d|] eqn:R; [|discriminate E]. cbn [HdfModel.bind] in E.
  destruct (read_dims g names) as [r|]; [|discriminate E]. cbn [HdfModel.bind] in E. assert (ds = d :: r) by congruence. subst ds.
  constructor; [|exact (IH r eq_refl)]. unfold read_dim in R.
  destruct (num_attr (key n "lower") g) as [lo|]; [|discriminate R]. cbn [HdfModel.bind] in R.
  destruct (num_attr (key n "upper") g) as [up|]; [|discriminate R]. cbn [HdfModel.bind] in R.
  destruct (int_attr (key n "num_cells") g) as [c|]; [|discriminate R]. cbn [HdfModel.bind] in R.
  unfold new_dim in R. destruct ((0 <? c)%Z && qltb lo up)%bool eqn:V; [|discriminate R]. cbn [HdfModel.bind] in R.
  apply andb_true_iff in V. destruct V as [V1 V2]. apply Z.ltb_lt in V1. apply qltb_lt in V2.
  assert (K := f_equal (fun r => match r with HdfModel.Ok x => (HdfModel.d_n x, HdfModel.d_lower x, HdfModel.d_upper x) | HdfModel.Err _ => (c, lo, up) end) R).
  cbv beta iota in K. destruct (assoc (key n "units") (g_attrs g)) as [[| |[|u us]|]|]; cbn [HdfModel.d_n HdfModel.d_lower HdfModel.d_upper] in K;
    (split; [replace (HdfModel.d_n d) with c by congruence; exact V1|replace (HdfModel.d_lower d) with lo by congruence; replace (HdfModel.d_upper d) with up by congruence; exact V2]).
Qed.
Lemma hdf_group ra g s : read_group ra g = HdfModel.Ok s -> proper_hdf s.
Proof.
  unfold read_group. destruct (assoc (lit "dimensions") (g_attrs g)) as [[| | |names]|]; try discriminate.
  destruct (read_dims g names) as [ds|] eqn:DS; [|discriminate]. cbn [HdfModel.bind].
  destruct (num_attr (lit "t") g) as [t|]; [|discriminate]. cbn [HdfModel.bind].
  destruct (int_attr (lit "num_eqn") g) as [n|]; [|discriminate]. cbn [HdfModel.bind].
  destruct (int_attr (lit "patch_index") g) as [i|]; [|discriminate]. cbn [HdfModel.bind].
  destruct (int_attr (lit "level") g) as [l|]; [|discriminate]. cbn [HdfModel.bind].
  destruct (int_attr (lit "num_aux") g) as [m|]; [|discriminate]. cbn [HdfModel.bind].
  assert (NA : forall k a, new_array k ds = Some a -> exists n, (n <> 0)%Z /\ HdfModel.a_shape a = n :: map HdfModel.d_n ds).
  { intros k a K. unfold new_array in K. destruct (Z.eqb_spec k 0) as [|Hk]; [discriminate K|].
    assert (a = HdfModel.mkArray (k :: map HdfModel.d_n ds) None) by congruence. subst a. exists k. split; [exact Hk|reflexivity]. }
  assert (RS : forall a sh b, reshaped a sh = HdfModel.Ok b -> HdfModel.a_shape b = sh).
  { intros a sh b K. unfold reshaped in K. destruct (Z.eqb _ _); [|discriminate K].
    assert (b = HdfModel.mkArray sh (a_data a)) by congruence. subst b. reflexivity. }
  destruct (new_array n ds) as [q0|] eqn:Q0; [|discriminate]. destruct (assoc (lit "q") (g_sets g)) as [q1|]; [|discriminate].
  destruct (reshaped q1 (HdfModel.a_shape q0)) as [q|] eqn:RQ; [|discriminate]. cbn [HdfModel.bind].
  match goal with |- HdfModel.bind ?x _ = _ -> _ => destruct x as [aux|] eqn:AX; [|discriminate] end. cbn [HdfModel.bind]. intros E.
  set (s' := HdfModel.mkState (HdfModel.mkPatch (Some i) (Some l) ds) t q None aux) in E. assert (s = s') by congruence. subst s. unfold s'.
  split; [exact (hdf_dims g names ds DS)|]. split; [discriminate|]. split; [discriminate|].
  unfold fits_grid. cbn [HdfModel.s_q HdfModel.s_patch HdfModel.p_dims HdfModel.s_aux]. rewrite (RS _ _ _ RQ). split; [exact (NA n q0 Q0)|].
  destruct (if ra then assoc (lit "aux") (g_sets g) else None) as [a1|]; destruct (new_array m ds) as [a0|] eqn:A0; try discriminate AX.
  - destruct (reshaped a1 (HdfModel.a_shape a0)) as [a'|] eqn:RA; [|discriminate AX]. cbn [HdfModel.bind] in AX.
    assert (aux = Some a') by congruence. subst aux. rewrite (RS _ _ _ RA). exact (NA m a0 A0).
  - assert (aux = Some a0) by congruence. subst aux. exact (NA m a0 A0).
  - assert (aux = None) by congruence. subst aux. exact I.
Qed.
Theorem C137_hdf fs path prefix frame ra old l : HdfModel.read fs path prefix frame ra old = HdfModel.Ok l ->
  exists new, l = old ++ new /\ Forall proper_hdf new.
Proof.
  unfold HdfModel.read. destruct (fs (HdfModel.file_name path prefix frame)) as [f|]; [|discriminate].
  destruct (read_groups ra f) as [ss|] eqn:G; [|discriminate]. cbn [HdfModel.bind]. intros E. exists ss. split; [congruence|]. clear E.
  revert ss G. induction f as [|(n & g) f IH]; intros ss G; cbn [read_groups] in G; [assert (ss = []) by congruence; subst; constructor|].
  destruct (read_group ra g) as [s|] eqn:S; [|discriminate G]. cbn [HdfModel.bind] in G.
  destruct (read_groups ra f) as [r|] eqn:R; [|discriminate G]. cbn [HdfModel.bind] in G. assert (ss = s :: r) by congruence. subst ss.
  constructor; [exact (hdf_group ra g s S)|exact (IH r eq_refl)].
Qed.
Print Assumptions C137_hdf.
