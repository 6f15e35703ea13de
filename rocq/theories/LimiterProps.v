(** Properties C25, C26, C55, C56, C58: limiters. *)
From Verif Require Import Base LimiterModel LimiterSpec LimiterProofs LimiterProofs2.

(** ** C25 *)
(** Fortran: methods 1-4 are in Sweby's region and symmetric.  [a] is the squared norm of the wave. *)
Theorem C25_fortran_sweby :
  forall n, In n [1%Z; 2%Z; 3%Z; 4%Z] ->
  exists phi, in_sweby phi /\ symmetric phi /\ forall a b, philim a b n = Some (phi (b / a)).
Proof.
  intros n [<-|[<-|[<-|[<-|[]]]]].
  - exists (fun r => minmod r 0). split; [apply minmod_sweby|]. split; [apply minmod_symmetric|reflexivity].
  - exists (fun r => pymax3 0 (pymin 1 (2 * r)) (pymin 2 r)).
    split; [apply superbee_sweby|]. split; [apply superbee_symmetric|reflexivity].
  - exists (fun r => vanleer r 0). split; [apply vanleer_sweby|]. split; [apply vanleer_symmetric|reflexivity].
  - exists (fun r => mc r 0). split; [apply mc_sweby|]. split; [apply mc_symmetric|reflexivity].
Qed.
Print Assumptions C25_fortran_sweby.
(** Python: minmod, van Leer and MC likewise, and equal to the Fortran formulas. *)
Theorem C25_python_sweby :
  forall pow n, In n [1%Z; 3%Z; 4%Z] ->
  exists phi, in_sweby phi /\ symmetric phi /\
  (forall a b, philim a b n = Some (phi (b / a))) /\
  exists f, limiter_functions pow n = Some f /\
  forall r c k x, length r = length c -> nth_error r k = Some x -> nth_error (f r c) k = Some (phi x).
Proof.
  assert (M : forall (g : Q -> Q -> Q) (phi : Q -> Q), (forall x c, g x c = phi x) ->
    forall (r c : list Q) k x, length r = length c -> nth_error r k = Some x -> nth_error (map2 g r c) k = Some (phi x)).
  { intros g phi Hg r c k x Hl Hk. rewrite nth_error_map2, Hk.
    destruct (nth_error c k) eqn:E; [rewrite Hg; reflexivity|].
    apply nth_error_None in E. assert (k < length r)%nat by (apply nth_error_Some; congruence). lia. }
  intros pow n [<-|[<-|[<-|[]]]].
  - exists (fun r => minmod r 0). split; [apply minmod_sweby|]. split; [apply minmod_symmetric|].
    split; [reflexivity|]. eexists. split; [reflexivity|]. apply M. reflexivity.
  - exists (fun r => vanleer r 0). split; [apply vanleer_sweby|]. split; [apply vanleer_symmetric|].
    split; [reflexivity|]. eexists. split; [reflexivity|]. apply M. reflexivity.
  - exists (fun r => mc r 0). split; [apply mc_sweby|]. split; [apply mc_symmetric|].
    split; [reflexivity|]. eexists. split; [reflexivity|]. apply M. reflexivity.
Qed.
Print Assumptions C25_python_sweby.
(** Python superbee is inside the region, but it is not superbee: it is not symmetric and differs from
    the Fortran formula (at r = 2: 1 instead of 2). *)
Theorem C25_python_superbee_partial : forall c, in_sweby (fun r => superbee_py r c).
Proof. exact superbee_py_sweby. Qed.
Print Assumptions C25_python_superbee_partial.
Theorem C25_python_superbee_refuted :
  (exists r, 0 < r /\ ~ superbee_py r 0 == r * superbee_py (1 / r) 0) /\
  (exists a b v, 0 < a /\ philim a b 2 = Some v /\ ~ v == superbee_py (b / a) 0).
Proof.
  split.
  - exists 2. split; [lra|]. vm_compute. discriminate.
  - exists 1, 2. eexists. split; [lra|]. split; [reflexivity|]. vm_compute. discriminate.
Qed.
Print Assumptions C25_python_superbee_refuted.
(** More precisely, Python's limiter 2 is min(1, 2r) cut off at 0. *)
Theorem C25_python_superbee_is : forall r c, superbee_py r c == pymax 0 (pymin 1 (2 * r)).
Proof. intros. unfold superbee_py. minmax; lra. Qed.
Print Assumptions C25_python_superbee_is.

(** ** C26 *)
Definition local_limiters : list Z :=
  [1; 2; 3; 4; 5; 6; 7; 8; 9; 10; 11; 12; 13; 14; 15; 16; 19; 20]%Z.
Theorem C26_cell_by_cell_partial :
  forall pow n, In n local_limiters ->
  exists f, limiter_functions pow n = Some f /\ cell_by_cell f.
Proof.
  intros pow n Hn. unfold local_limiters in Hn. simpl in Hn.
  repeat (destruct Hn as [<-|Hn]; [eexists; split; [reflexivity|apply map2_cell_by_cell]|]). destruct Hn.
Qed.
Print Assumptions C26_cell_by_cell_partial.
(** Limiters 18, 21, 22 and 23 take minima and maxima over the whole grid: changing the ratio at one
    interface changes the limiter at another. *)
Theorem C26_cell_by_cell_refuted :
  forall pow n, In n [18%Z; 21%Z; 22%Z; 23%Z] ->
  exists f, limiter_functions pow n = Some f /\ ~ cell_by_cell f.
Proof.
  intros pow n Hn. simpl in Hn.
  assert (W : forall f c y, (exists v w, nth_error (f [1; 1] [c; c]) 0 = Some v /\ nth_error (f [1; y] [c; c]) 0 = Some w /\ qeqb v w = false) ->
     ~ cell_by_cell f).
  { intros f c y (v & w & Hv & Hw & Hne) H.
    specialize (H [1; 1] [c; c] [1; y] [c; c] 0%nat eq_refl eq_refl eq_refl eq_refl).
    rewrite Hv, Hw in H. injection H as ->. apply qeqb_neq in Hne. apply Hne. reflexivity. }
  destruct Hn as [<-|[<-|[<-|[<-|[]]]]]; (eexists; split; [reflexivity|]);
  [apply (W _ (1 # 2) 2)|apply (W _ (1 # 2) (1 # 2))|apply (W _ (1 # 2) (1 # 2))|apply (W _ (1 # 2) (1 # 2))];
  eexists; eexists; (split; [reflexivity|split; [reflexivity|vm_compute; reflexivity]]).
Qed.
Print Assumptions C26_cell_by_cell_refuted.

(** ** C55: the limiters that depend on the Courant number stay in the TVD region for that number. *)
Theorem C55_cfl_limiters_in_region :
  forall nu, 0 < nu -> nu < 1 ->
  in_cfl_region nu (fun r => arora_roe r nu) /\
  in_cfl_region nu (fun r => cfl_superbee r nu) /\
  in_cfl_region nu (fun r => cfl_superbee_theta (95 # 100) r nu).
Proof.
  intros nu H0 H1. split; [apply arora_roe_region; assumption|]. split.
  - apply cfl_superbee_region; lra.
  - apply cfl_superbee_theta_region; lra.
Qed.
Print Assumptions C55_cfl_limiters_in_region.
Example C55_example : cfl_superbee 3 (1 # 2) == 3 /\ 0 < 1 # 2 /\ (1 # 2) < 1.
Proof. vm_compute. auto. Qed.

(** ** C56: limiters return 1 at r = 1, so smooth solutions get the second-order correction. *)
Theorem C56_unit_at_one_partial :
  forall pow n nu, In n [1; 2; 3; 4; 5; 6; 7; 8; 9; 10; 11; 15; 16; 19]%Z -> 0 < nu -> nu < 1 ->
  exists phi, limiter_functions pow n = Some (map2 phi) /\ phi 1 nu == 1.
Proof.
  intros pow n nu Hn H0 H1. simpl in Hn.
  repeat (destruct Hn as [<-|Hn]; [eexists; split; [reflexivity|]|]); try contradiction; try reflexivity.
  - unfold roe_third. lra.
  - apply unit_arora; assumption.
  - apply unit_cfl_superbee; assumption.
  - apply unit_cfl_superbee_theta; assumption.
Qed.
Print Assumptions C56_unit_at_one_partial.
(** Limiter 14 returns 2 at r = 1 (for Courant number 1/2), limiters 12 and 13 are wrong for small
    Courant numbers, and limiter 17 is identically 0, which switches the correction off. *)
Theorem C56_unit_at_one_refuted :
  theta_limiter (1 # 2) 1 (1 # 2) == 2 /\ ~ theta_limiter (95 # 100) 1 (1 # 20) == 1 /\
  ~ theta_limiter (3 # 4) 1 (1 # 4) == 1 /\
  forall pow r c, length r = length c ->
  exists f, limiter_functions pow 17 = Some f /\
  forall k, (k < length r)%nat -> exists v, nth_error (f r c) k = Some v /\ v == 0.
Proof.
  split; [reflexivity|]. split; [vm_compute; discriminate|]. split; [vm_compute; discriminate|].
  intros pow r c Hl. eexists. split; [reflexivity|]. intros k Hk. apply beta_limiter_zero; assumption.
Qed.
Print Assumptions C56_unit_at_one_refuted.

(** ** C58: limiters 7 and 8 (van Albada) and 9 (van Leer with Klein's sharpening) are symmetric, return 1 at
    r = 1, obey Sweby's bounds for r >= 0, and stay between -1/2 and 3/2 for r <= 0; limiter 9 is in Sweby's
    region. *)
Theorem C58_albada_klein_limiters :
  forall pow n, In n [7%Z; 8%Z; 9%Z] ->
  exists phi, limiter_functions pow n = Some (map2 phi) /\
  forall c, symmetric (fun r => phi r c) /\ phi 1 c == 1 /\
    (forall r, 0 <= r -> 0 <= phi r c <= 2 /\ phi r c <= 2 * r) /\
    (forall r, r <= 0 -> -(1 # 2) <= phi r c <= 3 # 2).
Proof.
  intros pow n [<-|[<-|[<-|[]]]]; (eexists; split; [reflexivity|]); intros c.
  - split; [apply albada2_symmetric|]. split; [reflexivity|]. split; [apply albada2_pos|].
    intros r H. pose proof (albada2_neg c r H). lra.
  - split; [apply albada3_symmetric|]. split; [reflexivity|]. split; [apply albada3_pos|]. apply albada3_neg_bounds.
  - destruct (klein_sweby c) as (A & B & C & D).
    split; [apply klein_symmetric|]. split; [exact D|]. split.
    + intros r H. split; [apply A|apply B; exact H].
    + intros r H. rewrite (klein_neg r c H). lra.
Qed.
Print Assumptions C58_albada_klein_limiters.
Theorem C58_klein_sweby :
  forall pow, exists phi, limiter_functions pow 9 = Some (map2 phi) /\ forall c, in_sweby (fun r => phi r c).
Proof. intros pow. eexists. split; [reflexivity|]. apply klein_sweby. Qed.
Print Assumptions C58_klein_sweby.
(** Limiters 7 and 8 do not vanish at extrema (r < 0), so they are not in Sweby's region. *)
Theorem C58_albada_at_extrema : ~ albada2 (-(1 # 2)) 0 == 0 /\ ~ albada3 (-(1 # 2)) 0 == 0.
Proof. split; vm_compute; discriminate. Qed.
Example C58_example : albada2 2 0 == 6 # 5 /\ albada3 2 0 == 4 # 3 /\ vanleer_klein 2 0 == (4 # 3) * (19 # 16).
Proof. vm_compute. auto. Qed.
