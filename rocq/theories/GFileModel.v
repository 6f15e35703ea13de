(** Gauge files: src/pyclaw/gauges.py (GaugeSolution: read, write, is_valid).

    Numbers are exact rationals. The decimal text of a coordinate (Python's str of a float) is an argument [str_float];
    values are printed with "%+.pe" for a number of digits [p]. np.loadtxt and np.fromfile are modelled by their
    documented behaviour; the bytes of a .bin file are decoded by the arguments [decode64] and [decode32].
    The attributes of the object are assigned one after the other, so that what is left after an exception is described
    too. use_pandas=True, which always raises, is left out. *)
From Coq Require Import Ascii String.
From Verif Require Import Base FormatModel.
Open Scope Q_scope.

(** ** Texts *)

(** the digits and the exponent of "%.pe" for x >= 0 *)
Definition sci_p (p : nat) (x : Q) : Z * Z :=
  if qeqb x 0 then (0%Z, 0%Z)
  else
    let e := exponent x in
    let m := round_even (x * pow10 (Z.of_nat p - e)) in
    if (m =? 10 ^ (Z.of_nat p + 1))%Z then ((10 ^ Z.of_nat p)%Z, (e + 1)%Z) else (m, e).
Definition fmt_sci_p (p : nat) (me : Z * Z) : text :=
  digit_char (fst me / 10 ^ Z.of_nat p)%Z :: c_dot :: digits p (fst me) ++ fmt_exp (snd me).
(** "%+.pe" % x for p >= 1 *)
Definition fmt_plus (p : nat) (x : Q) : text :=
  if qltb x 0 then c_minus :: fmt_sci_p p (sci_p p (- x)) else c_plus :: fmt_sci_p p (sci_p p x).
(** "%02i" % m *)
Definition fmt_02i (m : Z) : text :=
  if (m <? 0)%Z then c_minus :: str_nat (- m) else pad c_zero 2 (str_nat m).
(** gauges.py:106, 186 and 248: "gauge%s.txt" % str(gauge_id).zfill(5), and .bin; for gauge_id >= 0 *)
Definition txt_name (id : Z) : text := lit "gauge" ++ pad c_zero 5 (str_nat id) ++ lit ".txt".
Definition bin_name (id : Z) : text := lit "gauge" ++ pad c_zero 5 (str_nat id) ++ lit ".bin".

Fixpoint starts (w s : text) : bool :=
  match w, s with
  | [], _ => true
  | c :: w', d :: s' => (Ascii.eqb c d && starts w' s')%bool
  | _, [] => false
  end.
(** Python's [w in s] *)
Fixpoint contains (w s : text) : bool :=
  match s with [] => starts w [] | _ :: r => (starts w s || contains w r)%bool end.
(** str.lower, 7-bit ASCII *)
Definition lower_char (c : ascii) : ascii :=
  let n := N_of_ascii c in if ((65 <=? n) && (n <=? 90))%N%bool then ascii_of_N (n + 32) else c.
Definition lower_case (t : text) : text := map lower_char t.
(** the part of a line before a comment *)
Definition c_hash : ascii := ascii_of_N 35.
Fixpoint uncomment (s : text) : text :=
  match s with [] => [] | c :: r => if Ascii.eqb c c_hash then [] else c :: uncomment r end.

(** ** The object *)

Inductive gtype := Stationary | Lagrangian.
(** gauges.py:51-70. [g_q]: the number of fields (q.shape[0]) and, for each observation, its fields *)
Record gauge := mkGauge {
  g_id : option Z; g_location : option (list Q); g_level : option (list Z); g_t : option (list Q);
  g_q : option (nat * list (list Q)); g_type : gtype; g_path : option (list (list Q)) }.
Definition new_gauge : gauge := mkGauge None None None None None Stationary None.

Inductive error :=
| Missing            (* FileNotFoundError *)
| IndexErr           (* IndexError *)
| ValueErr           (* ValueError of int(), float(), np.loadtxt *)
| NoNumEqn           (* UnboundLocalError: a first line with another number of words *)
| WrongId            (* ValueError "Gauge ID requested does not match ID inside file!" *)
| WrongFields        (* ValueError "Number of fields in gauge file does not match" *)
| WrongCount         (* AssertionError "unexpected number of values in gauge file" *)
| NotValid.          (* ValueError "Gauge is not initialized properly." *)
Inductive outcome := Done | Warned | Raised (e : error).

Definition files (A : Type) := text -> option A.
Definition text_eqb (a b : text) : bool := if list_eq_dec ascii_dec a b then true else false.
Definition set_file {A} (n : text) (f : A) (fs : files A) : files A := fun m => if text_eqb m n then Some f else fs m.

(** gauges.py:262-280 is_valid *)
Definition is_valid (g : gauge) : bool :=
  match g_id g, g_location g, g_level g, g_t g, g_q g with Some _, Some _, Some _, Some _, Some _ => true | _, _, _, _, _ => false end.

Section Numbers.
Variable str_float : Q -> text.

(** " ".join *)
Fixpoint join (l : list text) : text :=
  match l with [] => [] | [a] => a | a :: r => a ++ c_space :: join r end.
(** gauges.py:251-253 *)
Definition header_line (id : Z) (x y : Q) (nf : nat) : text :=
  lit "# gauge_id= " ++ str_int id ++ lit " location=( " ++ str_float x ++ lit " " ++ str_float y ++ lit " ) num_eqn= "
  ++ str_int (Z.of_nat nf) ++ [c_nl].
Definition columns_line : text := lit "# Columns: level time q(1 ... num_eqn)" ++ [c_nl].
(** gauges.py:257-259 *)
Definition row_line (p : nat) (lev : Z) (t : Q) (v : list Q) : text :=
  fmt_02i lev ++ c_space :: fmt_plus 15 t ++ c_space :: join (map (fmt_plus p) v) ++ [c_nl].
(** gauges.py:256-259; level[i] or t[i] may be missing *)
Fixpoint rows_text (p : nat) (lev : list Z) (t : list Q) (obs : list (list Q)) : text * outcome :=
  match obs with
  | [] => ([], Done)
  | v :: r =>
      match lev, t with
      | l :: lev', x :: t' => let (s, o) := rows_text p lev' t' r in (row_line p l x v ++ s, o)
      | _, _ => ([], Raised IndexErr)
      end
  end.
(** gauges.py:242-259 write, in a directory: the .txt files afterwards. The file is emptied before the location is
    looked at. *)
Definition write (p : nat) (g : gauge) (fs : files text) : files text * outcome :=
  match g_id g, g_location g, g_level g, g_t g, g_q g with
  | Some id, Some loc, Some lev, Some t, Some (nf, obs) =>
      match loc with
      | x :: y :: _ =>
          let (s, o) := rows_text p lev t obs in
          (set_file (txt_name id) (header_line id x y nf ++ columns_line ++ s) fs, o)
      | _ => (set_file (txt_name id) [] fs, Raised IndexErr)
      end
  | _, _, _, _, _ => (fs, Raised NotValid)
  end.
End Numbers.

Section Reading.
Variable bytes : Type.
Variable decode64 decode32 : bytes -> list Q.

Fixpoint floats (l : list text) : option (list Q) :=
  match l with
  | [] => Some []
  | w :: r => match parse_float w, floats r with Some x, Some xs => Some (x :: xs) | _, _ => None end
  end.
(** np.loadtxt(path, comments="#"): the rows; lines without words are skipped, all others must have the same number of
    words, all of them numbers *)
Fixpoint load_rows (ls : list text) : option (list (list Q)) :=
  match ls with
  | [] => Some []
  | l :: r =>
      match words (uncomment l) with
      | [] => load_rows r
      | ws => match floats ws, load_rows r with
              | Some v, Some vs => if forallb (fun u => Nat.eqb (length u) (length v)) vs then Some (v :: vs) else None
              | _, _ => None
              end
      end
  end.
(** gauges.py:180-182: one row, one column or nothing at all is a one-dimensional array, which becomes one row *)
Definition as_rows (rows : list (list Q)) : list (list Q) :=
  match rows with
  | [] => [[]]
  | [v] => [v]
  | v :: _ => if Nat.eqb (length v) 1 then [concat rows] else rows
  end.
(** gauges.py:199-205: consecutive groups of n numbers *)
Fixpoint groups (k : nat) (n : nat) (l : list Q) : list (list Q) :=
  match k with O => [] | S k' => firstn n l :: groups k' n (skipn n l) end.

(** the first line: id, location and number of equations *)
Definition word (ws : list text) (i : nat) : text := nth i ws [].
Record head := mkHead { h_id : Z; h_location : option (list Q); h_neqn : option Z }.
(** gauges.py:114-127; an error comes with what has been assigned before. With another number of words nothing is
    assigned but the id. *)
Definition read_head (l : text) : head + option head * error :=
  let ws := words l in
  if (length ws <? 3)%nat then inr (None, IndexErr)
  else match parse_int (word ws 2) with
  | None => inr (None, ValueErr)
  | Some id =>
      let locs n := floats (firstn n (skipn 4 ws)) in
      let get n k := match locs n, parse_int (word ws k) with
                     | Some xs, Some m => inl (mkHead id (Some xs) (Some m))
                     | Some xs, None => inr (Some (mkHead id (Some xs) None), ValueErr)
                     | None, _ => inr (Some (mkHead id None None), ValueErr)
                     end in
      if Nat.eqb (length ws) 8 then get 1%nat 7%nat
      else if Nat.eqb (length ws) 9 then get 2%nat 8%nat
      else if Nat.eqb (length ws) 10 then get 3%nat 9%nat
      else inl (mkHead id None None)
  end.

Inductive dformat := Ascii_data | Binary64 | Binary32.
(** gauges.py:129-160: the type and the format; readline gives an empty text after the end *)
Definition read_format (ls : list text) : gtype * dformat :=
  let line i := nth i ls [] in
  let second := lower_case (line 0%nat) in
  let '(ty, next) := if contains (lit "lagrangian") second then (Lagrangian, 2%nat)
                     else if contains (lit "stationary") second then (Stationary, 2%nat)
                     else (Stationary, 1%nat) in
  let l := line next in
  (ty, match l with
       | [] => Binary64
       | _ => if contains (lit "binary32") l then Binary32 else if contains (lit "binary") l then Binary64 else Ascii_data
       end).

(** astype(np.int64): towards zero *)
Definition trunc (x : Q) : Z := Z.quot (Qnum x) (Zpos (Qden x)).

Definition set_head (h : head) (g : gauge) : gauge :=
  mkGauge (Some (h_id h)) (match h_location h with Some l => Some l | None => g_location g end)
    (g_level g) (g_t g) (g_q g) (g_type g) (g_path g).
Definition set_type (ty : gtype) (g : gauge) : gauge :=
  mkGauge (g_id g) (g_location g) (g_level g) (g_t g) (g_q g) ty (g_path g).
Definition set_path (p : list (list Q)) (g : gauge) : gauge :=
  mkGauge (g_id g) (g_location g) (g_level g) (g_t g) (g_q g) (g_type g) (Some p).

(** gauges.py:216-226 *)
Definition particle_path (g : gauge) (nf : nat) (ts : list Q) (obs : list (list Q)) : gauge * outcome :=
  match g_location g with
  | Some [x; y] =>
      match g_type g with
      | Lagrangian =>
          if (3 <=? nf)%nat
          then (set_path (map (fun tv => [fst tv; nth 1 (snd tv) 0; nth 2 (snd tv) 0]) (combine ts obs)) g, Done)
          else (g, Raised IndexErr)
      | Stationary =>
          match ts with t0 :: _ => (set_path [[t0; x; y]] g, Done) | [] => (g, Raised IndexErr) end
      end
  | _ => (g, Done)
  end.
(** gauges.py:207-226: rows of numbers become level, t and q; [nf]: the number of columns less two *)
Definition store (neqn : option Z) (ncol : nat) (rows : list (list Q)) (g : gauge) : gauge * outcome :=
  match ncol with
  | O => (g, Raised IndexErr)
  | S O => (mkGauge (g_id g) (g_location g) (Some (map (fun v => trunc (nth 0 v 0)) rows)) (g_t g) (g_q g) (g_type g) (g_path g),
            Raised IndexErr)
  | S (S nf) =>
      let ts := map (fun v => nth 1 v 0) rows in
      let obs := map (skipn 2) rows in
      let g' := mkGauge (g_id g) (g_location g) (Some (map (fun v => trunc (nth 0 v 0)) rows)) (Some ts) (Some (nf, obs))
                  (g_type g) (g_path g) in
      match neqn with
      | None => (g', Raised NoNumEqn)
      | Some m => if (m =? Z.of_nat nf)%Z then particle_path g' nf ts obs else (g', Raised WrongFields)
      end
  end.

(** gauges.py:101-226 read into the object g; a negative number of equations in a binary file, which numpy would take for
    an unknown size, is an error here *)
Definition read (txt : files text) (bin : files bytes) (id : Z) (g : gauge) : gauge * outcome :=
  match txt (txt_name id) with
  | None => (g, Raised Missing)
  | Some s =>
      match lines s with
      | [] => (g, Raised IndexErr)
      | first :: rest =>
          match read_head first with
          | inr (None, e) => (g, Raised e)
          | inr (Some h, e) => (set_head h g, Raised e)
          | inl h =>
              let (ty, fmt) := read_format rest in
              let g' := set_type ty (set_head h g) in
              if negb (h_id h =? id)%Z then (g', Raised WrongId)
              else match fmt with
              | Ascii_data =>
                  match load_rows (lines s) with
                  | None => (g', Raised ValueErr)
                  | Some rows => let d := as_rows rows in store (h_neqn h) (length (nth 0 d [])) d g'
                  end
              | _ =>
                  match bin (bin_name id) with
                  | None => (g', Warned)
                  | Some b =>
                      let d := match fmt with Binary32 => decode32 b | _ => decode64 b end in
                      match h_neqn h with
                      | None => (g', Raised NoNumEqn)
                      | Some m =>
                          if (m <? 0)%Z then (g', Raised ValueErr) else
                          let n := Z.to_nat (2 + m) in
                          if (length d mod n =? 0)%nat then store (h_neqn h) n (groups (length d / n) n d) g'
                          else (g', Raised WrongCount)
                      end
                  end
              end
          end
      end
  end.
End Reading.
