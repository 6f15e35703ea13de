(** Text formatting and parsing used by the ASCII output: [%18.8e], [%5i], [zfill], and Python's int(),
    float(), str.split() and line-wise reading.

    These functions belong to Python itself; they are modelled because the ASCII files are defined by
    them.  They are used by src/pyclaw/fileio/ascii.py:42-124 (formats), 179-296 and 359-395 (reading),
    src/pyclaw/util.py:552-574 (read_data_line).  Text is a list of characters.  Numbers are exact rationals, so infinities, NaN and negative
    zero do not occur and are not modelled. *)
From Coq Require Import Ascii String.
From Verif Require Import Base.
Open Scope Q_scope.

Definition text := list ascii.
(** a literal *)
Definition lit (s : string) : text := list_ascii_of_string s.

Definition c_nl : ascii := ascii_of_N 10.
Definition c_space : ascii := ascii_of_N 32.
Definition c_zero : ascii := ascii_of_N 48.
Definition c_dot : ascii := ascii_of_N 46.
Definition c_plus : ascii := ascii_of_N 43.
Definition c_minus : ascii := ascii_of_N 45.
Definition c_e : ascii := ascii_of_N 101.
Definition c_E : ascii := ascii_of_N 69.
Definition c_slash : ascii := ascii_of_N 47.

(** ** Decimal digits *)

Definition digit_char (d : Z) : ascii := ascii_of_N (Z.to_N (48 + d)).
(** The value of a digit character; [None] for any other character. *)
Definition digit_val (c : ascii) : option Z :=
  let n := Z.of_N (N_of_ascii c) in
  if ((48 <=? n) && (n <=? 57))%Z%bool then Some (n - 48)%Z else None.
Definition is_digit (c : ascii) : bool := match digit_val c with Some _ => true | None => false end.

(** the last [k] decimal digits of [m] *)
Fixpoint digits (k : nat) (m : Z) : text :=
  match k with
  | O => []
  | S k' => digits k' (m / 10)%Z ++ [digit_char (m mod 10)%Z]
  end.

(** the number of decimal digits of [m >= 0]; the fuel is at least the number of binary digits *)
Fixpoint num_digits_from (fuel : nat) (m : Z) : nat :=
  match fuel with
  | O => 1
  | S f => if (m <? 10)%Z then 1 else S (num_digits_from f (m / 10)%Z)
  end.
Definition num_digits (m : Z) : nat := num_digits_from (Z.to_nat (Z.log2 m)) m.

(** str(m) for an integer [m >= 0] *)
Definition str_nat (m : Z) : text := digits (num_digits m) m.
(** str(m) for an integer *)
Definition str_int (m : Z) : text :=
  if (m <? 0)%Z then c_minus :: str_nat (- m) else str_nat m.

(** padding on the left to a width: blanks for [%5i] and [%18.8e], zeros for str.zfill (applied to
    texts without a sign only) *)
Definition pad (c : ascii) (w : nat) (s : text) : text := repeat c (w - length s) ++ s.
(** ["%5i" % m] *)
Definition fmt_5i (m : Z) : text := pad c_space 5 (str_int m).
(** [str(frame).zfill(4)] for a frame number *)
Definition zfill4 (m : Z) : text := pad c_zero 4 (str_nat m).

(** ** Scientific notation *)

Definition pow10 (e : Z) : Q := Qpower (10 # 1) e.

(** The decimal exponent: [10^e <= x < 10^(e+1)] for [x > 0].  The fuel is at least the number of
    binary digits of the numerator (upward search) or the denominator (downward search). *)
Fixpoint exp_up (fuel : nat) (k : Z) (x : Q) : Z :=
  match fuel with
  | O => k
  | S f => if qleb (pow10 (k + 1)) x then exp_up f (k + 1) x else k
  end.
Fixpoint exp_down (fuel : nat) (k : Z) (x : Q) : Z :=
  match fuel with
  | O => k
  | S f => if qleb (pow10 k) x then k else exp_down f (k - 1) x
  end.
Definition exponent (x : Q) : Z :=
  if qleb 1 x
  then exp_up (Z.to_nat (Z.log2 (Qnum x) + 1)) 0 x
  else exp_down (Z.to_nat (Z.log2 (Zpos (Qden x)) + 1)) (-1) x.

(** round to the nearest integer, ties to even *)
Definition round_even (x : Q) : Z :=
  let f := qfloor x in
  let r := x - inject_Z f in
  if qltb r (1 # 2) then f
  else if qltb (1 # 2) r then (f + 1)%Z
  else if Z.even f then f else (f + 1)%Z.

(** the nine digits and the exponent printed for [x > 0]; for 0 Python prints the exponent 0 *)
Definition sci (x : Q) : Z * Z :=
  if qeqb x 0 then (0%Z, 0%Z)
  else
    let e := exponent x in
    let m := round_even (x * pow10 (8 - e)) in
    if (m =? 10 ^ 9)%Z then ((10 ^ 8)%Z, (e + 1)%Z) else (m, e).

(** [e+05], at least two digits *)
Definition fmt_exp (e : Z) : text :=
  c_e :: (if (e <? 0)%Z then c_minus else c_plus) :: pad c_zero 2 (str_nat (Z.abs e)).
(** ["%.8e"] of a non-negative number from its digits *)
Definition fmt_sci (me : Z * Z) : text :=
  digit_char (fst me / 10 ^ 8)%Z :: c_dot :: digits 8 (fst me) ++ fmt_exp (snd me).
(** ["%.8e" % x] *)
Definition fmt_e (x : Q) : text :=
  if qltb x 0 then c_minus :: fmt_sci (sci (- x)) else fmt_sci (sci x).
(** ["%18.8e" % x] *)
Definition fmt_18_8e (x : Q) : text := pad c_space 18 (fmt_e x).

(** ** Parsing *)

(** the value of a non-empty sequence of digits *)
Fixpoint digits_val (acc : Z) (s : text) : option Z :=
  match s with
  | [] => Some acc
  | c :: r => match digit_val c with Some d => digits_val (10 * acc + d)%Z r | None => None end
  end.
Definition parse_nat (s : text) : option Z :=
  match s with [] => None | _ => digits_val 0 s end.

(** an optional sign: true for minus *)
Definition take_sign (s : text) : bool * text :=
  match s with
  | c :: r => if Ascii.eqb c c_minus then (true, r) else if Ascii.eqb c c_plus then (false, r) else (false, s)
  | [] => (false, [])
  end.

(** Python's int() on a text without blanks; [None] when it raises ValueError.  Underscores between
    digits, which Python also accepts, are rejected. *)
Definition parse_int (s : text) : option Z :=
  let (neg, r) := take_sign s in
  match parse_nat r with
  | Some n => Some (if neg then (- n)%Z else n)
  | None => None
  end.

(** the longest prefix of digits and the rest *)
Fixpoint span_digits (s : text) : text * text :=
  match s with
  | c :: r => if is_digit c then let (a, b) := span_digits r in (c :: a, b) else ([], s)
  | [] => ([], [])
  end.

(** Python's float() on a text without blanks; [None] when it raises ValueError.  Simplifications: the
    result is the exact decimal number (Python rounds it to a double), and the words inf and nan and
    underscores, which Python also accepts, are rejected. *)
Definition parse_float (s : text) : option Q :=
  let (neg, r) := take_sign s in
  let (ip, r1) := span_digits r in
  let (fp, r2) := match r1 with
                  | c :: r' => if Ascii.eqb c c_dot then span_digits r' else ([], r1)
                  | [] => ([], r1)
                  end in
  match parse_nat (ip ++ fp) with
  | None => None
  | Some m =>
      let ex := match r2 with
                | [] => Some 0%Z
                | c :: r' => if (Ascii.eqb c c_e || Ascii.eqb c c_E)%bool then parse_int r' else None
                end in
      match ex with
      | None => None
      | Some ex =>
          let v := inject_Z m * pow10 (ex - Z.of_nat (length fp)) in
          Some (if neg then - v else v)
      end
  end.

(** ** Lines and words *)

(** The lines of a file as f.readline() returns them: with the newline, except possibly the last.
    Carriage returns, which Python's text mode also translates, are not modelled. *)
Fixpoint lines_from (cur : text) (s : text) : list text :=
  match s with
  | [] => match cur with [] => [] | _ => [cur] end
  | c :: r => if Ascii.eqb c c_nl then (cur ++ [c]) :: lines_from [] r else lines_from (cur ++ [c]) r
  end.
Definition lines (s : text) : list text := lines_from [] s.

(** white space of str.split(), restricted to 8-bit ASCII *)
Definition is_space (c : ascii) : bool :=
  let n := Z.of_N (N_of_ascii c) in
  ((n =? 32) || ((9 <=? n) && (n <=? 13)) || ((28 <=? n) && (n <=? 31)))%Z%bool.

(** str.split() *)
Fixpoint words_from (cur : text) (s : text) : list text :=
  match s with
  | [] => match cur with [] => [] | _ => [cur] end
  | c :: r =>
      if is_space c then match cur with [] => words_from [] r | _ => cur :: words_from [] r end
      else words_from (cur ++ [c]) r
  end.
Definition words (s : text) : list text := words_from [] s.
