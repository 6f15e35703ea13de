(** Lemmas about old gauge files. *)
From Coq Require Import Ascii String.
From Verif Require Import Base FormatModel FormatSpec FormatProofs FormatProofs2 GFileModel GFileSpec GFileProofs GFileProps GConvModel GConvSpec.
Open Scope Q_scope.

Definition row_of (v : list Q) (e : entry) : Prop :=
  exists a b, v = a :: b :: e_time e :: e_fields e /\ a == inject_Z (e_id e) /\ b == inject_Z (e_level e).
Lemma trunc_inject a n : a == inject_Z n -> trunc a = n.
Proof.
  unfold trunc, Qeq. cbn [inject_Z Qnum Qden]. intro H. rewrite Z.mul_1_r in H. rewrite H. apply Z.quot_mul. discriminate.
Qed.
Lemma floats_forall2 ws v : Forall2 (fun w x => parse_float w = Some x) ws v -> floats ws = Some v.
Proof. induction 1 as [|w x ws v H _ IH]; cbn [floats]; [reflexivity|]. rewrite H, IH. reflexivity. Qed.
Lemma row_length v e nf : row_of v e -> length (e_fields e) = nf -> length v = S (S (S nf)).
Proof. intros (a & b & -> & _) H. cbn [length]. rewrite H. reflexivity. Qed.
Lemma load_old nf : forall ls es, Forall2 entry_line ls es -> Forall (fun e => length (e_fields e) = nf) es ->
  exists rows, load_rows ls = Some rows /\ Forall2 row_of rows es /\ Forall (fun v => length v = S (S (S nf))) rows.
Proof.
  induction 1 as [|l e ls es H _ IH]; intro F.
  - exists []. repeat split; constructor.
  - destruct (IH (Forall_inv_tail F)) as (rows & R & K & N). destruct H as (a & b & Ha & Hb & W).
    exists ((a :: b :: e_time e :: e_fields e) :: rows). cbn [load_rows].
    pose proof (floats_forall2 _ _ W) as FL. destruct (words (uncomment l)) as [|w ws]; [inversion W|].
    rewrite FL, R.
    assert (LV : length (a :: b :: e_time e :: e_fields e) = S (S (S nf))) by (cbn [length]; rewrite (Forall_inv F); reflexivity).
    assert (FB : forallb (fun u => Nat.eqb (length u) (length (a :: b :: e_time e :: e_fields e))) rows = true).
    { apply forallb_forall. intros u Hu. rewrite Forall_forall in N. rewrite (N u Hu), LV. apply Nat.eqb_refl. }
    rewrite FB. split; [reflexivity|]. split; [constructor; [exists a, b; repeat split; assumption|exact K]|constructor; assumption].
Qed.
Lemma rows_old old es nf : old_file old es nf ->
  exists rows, old_rows old = inl rows /\ Forall2 row_of rows es /\ Forall (fun v => length v = S (S (S nf))) rows /\ length (nth 0 rows []) = S (S (S nf)).
Proof.
  intro O. destruct (load_old nf _ _ (o_lines _ _ _ O) (o_fields _ _ _ O)) as (rows & R & K & N). exists rows.
  pose proof (o_many _ _ _ O) as M. unfold old_rows. rewrite R.
  inversion K as [|v e rows' es' Hv K' E1 E2]; subst; [cbn in M; lia|]. inversion K' as [|v2 e2 rows'' es'' Hv2 K'' E1 E2]; subst; [cbn in M; lia|].
  pose proof (Forall_inv N) as L. cbv beta in L. rewrite L. cbn [Nat.leb]. repeat split; assumption.
Qed.
Lemma row_id_of v e : row_of v e -> row_id v = e_id e.
Proof. intros (a & b & -> & Ha & _). unfold row_id. cbn [nth]. apply trunc_inject, Ha. Qed.
Lemma row_ids rows es : Forall2 row_of rows es -> map row_id rows = map e_id es.
Proof. induction 1 as [|v e rows es H _ IH]; cbn [map]; [reflexivity|]. rewrite IH, (row_id_of v e H). reflexivity. Qed.
Lemma rows_of_gauge id rows es : Forall2 row_of rows es -> Forall2 row_of (rows_of id rows) (of_gauge id es).
Proof.
  induction 1 as [|v e rows es H _ IH]; cbn [rows_of of_gauge filter]; [constructor|]. rewrite (row_id_of v e H).
  destruct (e_id e =? id)%Z; [constructor; assumption|exact IH].
Qed.
Lemma rows_parts rows es : Forall2 row_of rows es ->
  map (fun v => trunc (nth 1 v 0)) rows = map e_level es /\ map (fun v => nth 2 v 0) rows = map e_time es /\ map (skipn 3) rows = map e_fields es.
Proof.
  induction 1 as [|v e rows es (a & b & -> & Ha & Hb) _ (A & B & C)]; cbn [map]; [repeat split|]. rewrite A, B, C. cbn [nth skipn].
  rewrite (trunc_inject _ _ Hb). repeat split.
Qed.
(** the gauge made from an old file *)
Lemma old_gauge_complete nan old es nf rows id : old_file old es nf -> Forall2 row_of rows es -> In id (map e_id es) ->
  exists g, old_gauge nan (S (S (S nf))) rows id = inl g /\
    complete g id [nan; nan] (map e_level (of_gauge id es)) (map e_time (of_gauge id es)) nf (map e_fields (of_gauge id es)).
Proof.
  intros O K I. unfold old_gauge. cbn [Nat.ltb Nat.leb].
  destruct (rows_parts _ _ (rows_of_gauge id rows es K)) as (A & B & C). rewrite A, B, C. eexists. split; [reflexivity|].
  apply in_map_iff in I. destruct I as (e & E & I).
  constructor; cbn [g_id g_location g_level g_t g_q]; try reflexivity.
  - pose proof (o_ids _ _ _ O) as P. rewrite Forall_forall in P. rewrite <- E. exact (P e I).
  - repeat f_equal. lia.
  - intro N. apply map_eq_nil in N. assert (In e (of_gauge id es)) as Q by (apply filter_In; split; [exact I|apply Z.eqb_eq, E]).
    rewrite N in Q. exact Q.
  - rewrite !map_length. reflexivity.
  - rewrite !map_length. reflexivity.
  - apply Forall_forall. intros v Hv. apply in_map_iff in Hv. destruct Hv as (e' & <- & Hv). apply filter_In in Hv.
    pose proof (o_fields _ _ _ O) as P. rewrite Forall_forall in P. exact (P e' (proj1 Hv)).
Qed.
Lemma written_holds str_float bytes (decode64 decode32 : bytes -> list Q) nan g id es nf fs :
  readable str_float nan -> complete g id [nan; nan] (map e_level es) (map e_time es) nf (map e_fields es) ->
  exists fs', write str_float 15 g fs = (fs', Done) /\ (forall n, n <> txt_name id -> fs' n = fs n) /\ holds decode64 decode32 fs' id nf es.
Proof.
  intros R C. destruct (written_and_read str_float bytes decode64 decode32 15 g id nan nan [] _ _ nf _ fs C R R) as (fs' & x' & y' & W & O & _ & _ & Rd).
  exists fs'. split; [exact W|]. split; [exact O|]. intros bin g0. do 3 eexists. split; [apply Rd|]. cbn [g_id g_level g_t g_q].
  assert (F2 : forall q (l : list Q), Forall2 (accurate q) l (map (reread_p q) l)).
  { intros q. induction l as [|a l IH]; cbn [map]; constructor; [apply reread_p_accurate|exact IH]. }
  split; [reflexivity|]. split; [reflexivity|]. split; [reflexivity|]. split; [apply F2|]. split; [reflexivity|].
  generalize (map e_fields es). induction l as [|v r IH]; cbn [map]; constructor; [apply F2|exact IH].
Qed.
