(** Properties of the reader of raw binary frames. *)
From Coq Require Import Ascii String.
From Verif Require Import Base FormatModel FormatSpec AsciiModel AsciiSpec FormatProofs FormatProofs2 AsciiProofs AsciiProofs2
  BinaryModel BinarySpec BinaryProofs BinaryProofs2.
Open Scope Q_scope.

Section Files.
Context {D : Type}.

(** *** C43: every value goes to its patch, component and cell *)

(** A frame with [g >= 0] layers of ghost cells: reading it gives one state per patch, in order, each with
    the patch of the header, the time of the frame (nine digits) and exactly the values of the cells of the
    patch; the ghost cells and trailing data are dropped. *)
Theorem C43_binary_frames (fs : @files D) (path prefix : text) (frame : Z) (fmt opt : text) (t : Q)
    (num_eqn num_aux g : Z) (num_dim : nat) (xs : list frame_patch) :
  (0 <= num_eqn)%Z -> (0 <= num_aux)%Z -> (0 <= g)%Z -> (1 <= num_dim <= 3)%nat ->
  binary_format fmt -> binary_format opt -> xs <> [] ->
  Forall (fun x => writable_patch num_dim (fp_patch x)) xs ->
  stored fs path prefix frame t num_eqn num_aux g num_dim fmt xs ->
  exists ss, binary_read fs path prefix frame opt false = Ok ss /\
    Forall2 (fun x s => same_patch (fp_patch x) (b_patch s) /\ nine_digits t (b_t s) /\
                        holds num_eqn (cells x) (fp_q x) (b_q s)) xs ss.
Proof.
  intros H1 H2 H3 H4 H5 H6 H7 H8 H9.
  destruct (read_frame t num_eqn num_aux g num_dim fmt H1 H3 H4 fs path prefix frame xs opt H5 H6 H7 H8 H9)
    as (ss & F & _ & E).
  exists ss. split; [rewrite E, andb_false_r; reflexivity|]. clear -F H4 H8.
  revert H8. induction F as [|x s xs ss (P1 & P2 & P3 & P4 & P5) F IH]; intros H8; constructor.
  - inversion H8 as [|? ? Wx _]; subst. rewrite P1, P2. split; [|split; [apply reread_accurate|exact P4]].
    apply (same_patch_reread _ num_dim); [apply (wp_dims _ _ Wx)|lia|exact (wp_valid _ _ Wx)].
  - inversion H8; subst. apply IH. assumption.
Qed.

(** With at least one layer of ghost cells the auxiliary arrays of this frame, or of frame 0 if this frame
    has none, are read the same way. *)
Theorem C43_auxiliary_arrays (fs : @files D) (path prefix : text) (frame : Z) (fmt opt : text) (t : Q)
    (num_eqn num_aux g : Z) (num_dim : nat) (xs : list frame_patch) (rest : list Q) (aux_frame : Z) :
  (0 <= num_eqn)%Z -> (0 < num_aux)%Z -> (0 < g)%Z -> (1 <= num_dim <= 3)%nat ->
  binary_format fmt -> binary_format opt -> xs <> [] ->
  Forall (fun x => writable_patch num_dim (fp_patch x)) xs ->
  stored fs path prefix frame t num_eqn num_aux g num_dim fmt xs ->
  (aux_frame = frame \/ aux_frame = 0%Z /\ fs (read_name path prefix "a" frame) = None) ->
  fs (read_name path prefix "a" aux_frame) =
    Some (DataFile (concat (map (fun x => dump_patch num_aux g (cells x) (fp_aux x)) xs) ++ rest)) ->
  exists ss, binary_read fs path prefix frame opt true = Ok ss /\
    Forall2 (fun x s => same_patch (fp_patch x) (b_patch s) /\ nine_digits t (b_t s) /\
                        holds num_eqn (cells x) (fp_q x) (b_q s) /\
                        exists a, b_aux s = Some a /\ holds num_aux (cells x) (fp_aux x) a) xs ss.
Proof.
  intros H1 H2 H3 H4 H5 H6 H7 H8 H9 Hw Ha.
  destruct (read_frame t num_eqn num_aux g num_dim fmt H1 ltac:(lia) H4 fs path prefix frame xs opt H5 H6 H7 H8 H9)
    as (ss & F & Hne & E).
  destruct (read_baux_ok t num_eqn num_aux g num_dim ltac:(lia) ltac:(lia) H4 xs ss H3 H8 F [] rest) as (ss' & E2 & F').
  exists ss'. split.
  - rewrite E. replace (0 <? num_aux)%Z with true by (symmetry; apply Z.ltb_lt; exact H2). cbn [andb].
    assert (FN : match fs (read_name path prefix "a" frame) with
                 | Some _ => Some (read_name path prefix "a" frame)
                 | None => match fs (read_name path prefix "a" 0) with
                           | Some _ => Some (read_name path prefix "a" 0)
                           | None => None
                           end
                 end = Some (read_name path prefix "a" aux_frame)).
    { destruct Hw as [->|[-> Hw]]; [rewrite Ha; reflexivity|]. rewrite Hw, Ha. reflexivity. }
    rewrite FN. unfold from_file. rewrite Ha.
    replace (text_eqb opt (lit "binary") || text_eqb opt (lit "binary64") || text_eqb opt (lit "binary32"))%bool with true
      by (destruct H6 as [<- | [<- | [<- | []]]]; reflexivity).
    cbn [bind]. exact E2.
  - clear -F' H4 H8. revert H8. induction F' as [|x s xs ss (P1 & P2 & P3 & P4 & P5) F IH]; intros H8; constructor.
    + inversion H8 as [|? ? Wx _]; subst. rewrite P1, P2. split; [|split; [apply reread_accurate|split; [exact P4|exact P5]]].
      apply (same_patch_reread _ num_dim); [apply (wp_dims _ _ Wx)|lia|exact (wp_valid _ _ Wx)].
    + inversion H8; subst. apply IH. assumption.
Qed.
End Files.

(** a frame with two patches in two dimensions, two components, one auxiliary field and one ghost layer *)
Definition C43_dim (lo : Q) (n : Z) (name : text) := mkDimn lo (lo + inject_Z n) n name.
Definition C43_patch (k n : Z) : frame_patch :=
  mkFP (mkPatch k 1 [C43_dim (inject_Z k) n (lit "x"); C43_dim 0 2 (lit "y")])
       (fun m ix => inject_Z (100 * k + 50 * m + 7 * nth 0 ix 0 + nth 1 ix 0)%Z)
       (fun m ix => inject_Z (k - nth 0 ix 0 + 11 * nth 1 ix 0)%Z).
Definition C43_frame : list frame_patch := [C43_patch 1 3; C43_patch 2 2].
Definition C43_files (g num_aux : Z) : @files unit :=
  store (store (store (store (fun _ => None)
    (lit "./fort.t0003") (TextFile (t_header (1 # 4) 2 2 num_aux 2 g (lit "binary64"))))
    (lit "./fort.q0003") (TextFile (concat (map (fun x => patch_header (fp_patch x)) C43_frame))))
    (lit "./fort.b0003") (DataFile (concat (map (fun x => dump_patch 2 g (cells x) (fp_q x)) C43_frame) ++ [5; 6])))
    (lit "./fort.a0000") (DataFile (concat (map (fun x => dump_patch num_aux g (cells x) (fp_aux x)) C43_frame))).

Example C43_case : stored (C43_files 1 1) (lit "./") (lit "fort") 3 (1 # 4) 2 1 1 2 (lit "binary64") C43_frame /\
  Forall (fun x => writable_patch 2 (fp_patch x)) C43_frame /\
  C43_files 1 1 (read_name (lit "./") (lit "fort") "a" 3) = None.
Proof.
  split; [split; [vm_compute; reflexivity|split; [vm_compute; reflexivity|exists [5; 6]; vm_compute; reflexivity]]|].
  split; [|vm_compute; reflexivity].
  assert (V : forall k n, (0 < n)%Z -> writable_patch 2 (fp_patch (C43_patch k n))).
  { intros k n Hn. constructor; [reflexivity|]. cbn [fp_patch C43_patch p_dims].
    constructor; [|constructor; [|constructor]]; unfold C43_dim; cbn [d_n d_lower d_upper d_name].
    - split; [exact Hn|]. split; [|intros [H|[]]; discriminate H].
      assert (0 < inject_Z n) by (change 0 with (inject_Z 0); rewrite <- Zlt_Qlt; exact Hn). lra.
    - split; [lia|]. split; [vm_compute; reflexivity|intros [H|[]]; discriminate H]. }
  constructor; [apply V; lia|]. constructor; [apply V; lia|constructor].
Qed.
(** what the reader makes of it *)
Definition entries (a : array) (ns : list Z) : list Q :=
  match ns with
  | [n1; n2] => concat (map (fun m => concat (map (fun i => map (fun j => a_val a [m; i; j]) (range n2)) (range n1))) (range 2))
  | _ => []
  end.
Example C43_run :
  match binary_read (C43_files 1 1) (lit "./") (lit "fort") 3 (lit "binary64") true with
  | Ok [s1; s2] => entries (b_q s2) [2; 2]%Z = map inject_Z [200; 201; 207; 208; 250; 251; 257; 258]%Z /\
                   a_shape (b_q s1) = [2; 3; 2]%Z /\
                   match b_aux s2 with Some a => a_shape a = [1; 2; 2]%Z /\ a_val a [0; 1; 1]%Z = 12 | None => False end
  | _ => False
  end.
Proof. vm_compute. repeat split; reflexivity. Qed.

(** *** C70: auxiliary arrays of binary frames without ghost cells *)

(** Without ghost cells the reader takes the slice [0:-0] of the auxiliary array, which is empty: the
    auxiliary values are lost although they are in the file. *)
Theorem C70_auxiliary_arrays_without_ghost_cells_refuted :
  exists (fs : @files unit) path prefix frame xs,
    stored fs path prefix frame (1 # 4) 2 1 0 2 (lit "binary64") xs /\
    Forall (fun x => writable_patch 2 (fp_patch x)) xs /\
    fs (read_name path prefix "a" frame) = None /\
    fs (read_name path prefix "a" 0) =
      Some (DataFile (concat (map (fun x => dump_patch 1 0 (cells x) (fp_aux x)) xs))) /\
    exists ss, binary_read fs path prefix frame (lit "binary64") true = Ok ss /\
      map (fun s => option_map a_shape (b_aux s)) ss = [Some [1; 0; 0]; Some [1; 0; 0]]%Z /\
      ~ Forall2 (fun x s => exists a, b_aux s = Some a /\ holds 1 (cells x) (fp_aux x) a) xs ss.
Proof.
  exists (C43_files 0 1), (lit "./"), (lit "fort"), 3%Z, C43_frame.
  split; [split; [vm_compute; reflexivity|split; [vm_compute; reflexivity|exists [5; 6]; vm_compute; reflexivity]]|].
  split; [exact (proj1 (proj2 C43_case))|]. split; [vm_compute; reflexivity|]. split; [vm_compute; reflexivity|].
  assert (K : forall r : result (list bstate),
     match r with Ok ss => map (fun s => option_map a_shape (b_aux s)) ss = [Some [1; 0; 0]; Some [1; 0; 0]]%Z | Err _ => False end ->
     exists ss, r = Ok ss /\ map (fun s => option_map a_shape (b_aux s)) ss = [Some [1; 0; 0]; Some [1; 0; 0]]%Z /\
      ~ Forall2 (fun x s => exists a, b_aux s = Some a /\ holds 1 (cells x) (fp_aux x) a) C43_frame ss).
  { intros [ss|e] H; [|destruct H]. exists ss. split; [reflexivity|]. split; [exact H|]. intros F.
    inversion F as [|x s xs ss' (a & Ea & Ha & _) F' E1 E2]; subst. cbn [map] in H. rewrite Ea in H. cbn [option_map] in H.
    rewrite Ha in H. discriminate H. }
  apply K. vm_compute. reflexivity.
Qed.

Print Assumptions C43_binary_frames.
Print Assumptions C43_auxiliary_arrays.
Print Assumptions C70_auxiliary_arrays_without_ghost_cells_refuted.
