(** When auxiliary arrays in a file belong to a patch. *)
From Verif Require Import Base AsciiModel.
Open Scope Q_scope.

(** Equal up to 1e-8, or one part in 10^15 *)
Definition near (x y : Q) : Prop := Qabs (x - y) <= (1 # 10 ^ 8) + (1 # 10 ^ 15) * Qabs x.
Definition near_dim (d e : dimension) : Prop :=
  d_n d = d_n e /\ near (d_lower d) (d_lower e) /\ near (d_delta d) (d_delta e).
(** The same level and number of cells, and nearly the same place *)
Definition near_patch (p p0 : patch) : Prop := p_level p = p_level p0 /\ Forall2 near_dim (p_dims p) (p_dims p0).
