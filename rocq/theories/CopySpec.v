(** What copies must be: each state behaves as if it owned its values. *)
From Verif Require Import Base CopyModel.

(** The values of a state, without any sharing. *)
Record values := mkValues {
  v_obj : fld -> option obj;
  v_t : Q;
  v_capa : Z;
  v_keep : bool }.

Definition values_of (h : store) (s : state) : values :=
  mkValues (fun f => match s_ref s f with Some a => nth_error h a | None => None end) (s_t s) (s_capa s) (s_keep s).

(** The effect of a change on values. *)
Definition change_values (c : change) (v : values) : values :=
  match c with
  | InPlace f g => mkValues (fun f' => if fld_eqb f f' then option_map g (v_obj v f) else v_obj v f') (v_t v) (v_capa v) (v_keep v)
  | Assign f o => mkValues (fun f' => if fld_eqb f f' then o else v_obj v f') (v_t v) (v_capa v) (v_keep v)
  | SetT t => mkValues (v_obj v) t (v_capa v) (v_keep v)
  | SetCapa k => mkValues (v_obj v) (v_t v) k (v_keep v)
  | SetKeep b => mkValues (v_obj v) (v_t v) (v_capa v) b
  end.

(** What the code's copy keeps: time, q, aux, problem data and the patch without its gauges.  The capacity
    index, the derived quantities, the functionals and keep_gauges are reset. *)
Definition without_gauges (o : obj) : obj :=
  match o with Pat p => Pat (mkPatch (p_dims p) (p_level p) (p_index p) (p_map p) []) | _ => o end.
Definition copied (v : values) : values :=
  mkValues (fun f => match f with
                     | Fq | Faux | Fdata | Fpatch => option_map without_gauges (v_obj v f)
                     | Fp | FF => None
                     end) (v_t v) (-1) false.

(** The program on values. *)
Definition value_step (o : op) (vs : list values) : list values :=
  match o with
  | Change i c => match nth_error vs i with
                  | Some v => firstn i vs ++ change_values c v :: skipn (S i) vs
                  | None => vs
                  end
  | Copy i => match nth_error vs i with
              | Some v => vs ++ [copied v]
              | None => vs
              end
  end.
Definition value_exec (ops : list op) (vs : list values) : list values := fold_left (fun vs o => value_step o vs) ops vs.

(** Equal values. *)
Definition same_values (a b : values) : Prop :=
  (forall f, v_obj a f = v_obj b f) /\ v_t a = v_t b /\ v_capa a = v_capa b /\ v_keep a = v_keep b.

(** States that share nothing, each of whose references exists. *)
Definition separate (h : store) (ss : list state) : Prop :=
  (forall i s f a, nth_error ss i = Some s -> s_ref s f = Some a -> (a < length h)%nat) /\
  (forall i j s s' f f' a, nth_error ss i = Some s -> nth_error ss j = Some s' ->
     s_ref s f = Some a -> s_ref s' f' = Some a -> i = j /\ f = f').
