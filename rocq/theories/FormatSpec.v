(** What it means for a printed number to be accurate. *)
From Coq Require Import Ascii String.
From Verif Require Import Base FormatModel.
Open Scope Q_scope.

(** 10 to an integer power, spelled out *)
Definition ten_to (e : Z) : Q :=
  if (0 <=? e)%Z then inject_Z (10 ^ e) else / inject_Z (10 ^ (- e)).

(** [y] differs from [x] by at most half a unit in the ninth significant digit of [x]: the leading digit
    of [x] is worth [10^e], the ninth [10^(e-8)]. *)
Definition nine_digits (x y : Q) : Prop :=
  (x == 0 /\ y == 0) \/
  exists e, ten_to e <= Qabs x /\ Qabs x < ten_to (e + 1) /\ Qabs (y - x) <= (1 # 2) * ten_to (e - 8).

(** the magnitudes of finite double precision numbers, with room to spare *)
Definition double_range (x : Q) : Prop :=
  x == 0 \/ (ten_to (-324) <= Qabs x /\ Qabs x < ten_to 309).

(** dictionary order of texts, by character codes (as a directory listing sorts names) *)
Fixpoint before (a b : text) : Prop :=
  match a, b with
  | _, [] => False
  | [], _ :: _ => True
  | c :: a', d :: b' => (Ascii.N_of_ascii c < Ascii.N_of_ascii d)%N \/ (c = d /\ before a' b')
  end.
