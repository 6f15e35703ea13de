(** Old gauge files: what a user expects. *)
From Coq Require Import Ascii String.
From Verif Require Import Base FormatModel GFileModel GFileSpec.
Open Scope Q_scope.

(** an observation in an old file: number of the gauge, level, time and fields *)
Record entry := mkEntry { e_id : Z; e_level : Z; e_time : Q; e_fields : list Q }.
(** the line [l] holds this entry: words that are numbers with these values *)
Definition entry_line (l : text) (e : entry) : Prop :=
  exists a b, a == inject_Z (e_id e) /\ b == inject_Z (e_level e) /\
  Forall2 (fun w x => parse_float w = Some x) (words (uncomment l)) (a :: b :: e_time e :: e_fields e).
(** the text [old] is an old gauge file with these entries, all with [nf] fields, at least two *)
Record old_file (old : text) (es : list entry) (nf : nat) : Prop := {
  o_lines : Forall2 entry_line (lines old) es;
  o_many : (2 <= length es)%nat;
  o_fields : Forall (fun e => length (e_fields e) = nf) es;
  o_ids : Forall (fun e => (0 <= e_id e)%Z) es }.
(** the entries of one gauge, in the order of the file *)
Definition of_gauge (id : Z) (es : list entry) : list entry := filter (fun e => (e_id e =? id)%Z) es.

(** a set gives each of its elements once *)
Definition set_like (f : list Z -> list Z) : Prop := forall l, NoDup (f l) /\ forall x, In x (f l) <-> In x l.

(** the directory has the file of gauge [id] with these entries: whoever reads it gets the levels, the times and the fields, the last two
    with sixteen digits *)
Definition holds {bytes} (decode64 decode32 : bytes -> list Q) (fs : files text) (id : Z) (nf : nat) (es : list entry) : Prop :=
  forall (bin : files bytes) g0, exists g' ts obs, read bytes decode64 decode32 fs bin id g0 = (g', Done) /\
    g_id g' = Some id /\ g_level g' = Some (map e_level es) /\
    g_t g' = Some ts /\ Forall2 (accurate 15) (map e_time es) ts /\
    g_q g' = Some (nf, obs) /\ Forall2 (Forall2 (accurate 15)) (map e_fields es) obs.
