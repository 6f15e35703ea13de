(** Problems that differ in cell width and capacity function only (C163). *)
From Verif Require Import Base BCModel BCSpec LimiterModel Classic1DModel Classic1DSpec TimeModel ControllerModel RunModel SimSpec SymSpec.

(** The same settings with another cell width and another (or no) capacity function *)
Definition with_width (C : settings) (dx : Q) (capa : option Z) : settings :=
  mkSet (c_neq C) (c_nw C) (c_naux C) (c_ng C) (c_fwave C) (c_order C) (c_mthlim C) (c_rp C) dx (c_dt C) capa (c_bc C) (c_funs C).
(** What cell i holds per unit of q: width times capacity *)
Definition content (C : settings) (aux : arr Q) (i : Z) : Q :=
  match c_capa C with Some k => c_dx C * aux k [i] | None => c_dx C end.
(** Arrays that agree in the first [comps] components *)
Definition agree (C : settings) (comps : nat) (a a2 : arr Q) : Prop :=
  forall m i, (0 <= m < Z.of_nat comps)%Z -> (0 <= i < cells C)%Z -> a2 m [i] == a m [i].
Definition agree_q (C : settings) : arr Q -> arr Q -> Prop := agree C (c_neq C).
(** auxiliary arrays that agree and with which every cell has the same content in both problems *)
Definition agree_aux (C C2 : settings) (a a2 : arr Q) : Prop :=
  agree C (c_naux C) a a2 /\ forall i, (0 <= i < cells C)%Z -> 0 < content C a i /\ content C2 a2 i == content C a i.

Record same_but_width {E E2} (RE : E -> E2 -> Prop) (p : program E) (p2 : program E2) : Prop := mkSameW {
  sw_lang : p_lang p2 = p_lang p;
  sw_settings : exists dx capa, p_settings p2 = with_width (p_settings p) dx capa /\ 0 < dx;
  sw_split : p_split p2 = p_split p;
  sw_source : rel_source (agree_q (p_settings p)) (agree_aux (p_settings p) (p_settings p2)) 1 (p_source p) (p_source p2);
  sw_before : rel_before (agree_q (p_settings p)) (agree_aux (p_settings p) (p_settings p2)) 1 (p_before p) (p_before p2);
  sw_setup : forall s s2, rel_solver RE 1 s s2 -> rel_solver RE 1 (p_setup p s) (p_setup p2 s2);
  sw_valid : forall s s2 so so2, rel_solver RE 1 s s2 ->
     rel_sol (agree_q (p_settings p)) (agree_aux (p_settings p) (p_settings p2)) 1 so so2 -> p_valid p2 s2 so2 = p_valid p s so }.
