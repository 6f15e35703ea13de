(** The coefficients of src/pyclaw/sharpclaw/weno.f90, transcribed term by term: for each smoothness indicator sigma the
    coefficients of the products q(i+a) q(i+b), for each value fr those of q(i+a), and the constants of the weights omega.
    The source gives them as decimals of 35 significant digits; each is taken as the fraction of smallest denominator
    (below 10^13) that agrees with it to within 3 units of its last digit, which is the number it abbreviates. *)
From Verif Require Import Base.
Open Scope Q_scope.

(** A stencil: sigma, the constants of the left and right weight, the left and right value. *)
Record stencil := mkStencil {
  st_sigma : list (Z * Z * Q);
  st_wl : Q; st_wr : Q;
  st_fl : list (Z * Q); st_fr : list (Z * Q) }.

(** weno.f90:34: sigma0, omega0, omega3, fr0 and fr3 of weno5 *)
Definition weno5_0 : stencil := mkStencil
  [
   (0%Z, 0%Z, (10 # 3)); (0%Z, 1%Z, (-31 # 3)); (0%Z, 2%Z, (11 # 3)); (1%Z, 1%Z, (25 # 3)); (1%Z, 2%Z, (-19 # 3)); (2%Z, 2%Z, (4 # 3))]
  (1 # 10) (3 # 10)
  [(0%Z, (11 # 6)); (1%Z, (-7 # 6)); (2%Z, (1 # 3))]
  [(0%Z, (1 # 3)); (1%Z, (5 # 6)); (2%Z, (-1 # 6))].
(** weno.f90:40: sigma1, omega1, omega4, fr1 and fr4 of weno5 *)
Definition weno5_1 : stencil := mkStencil
  [
   (0%Z, 0%Z, (13 # 3)); (0%Z, 1%Z, (-13 # 3)); (0%Z, (-1)%Z, (-13 # 3)); (1%Z, 1%Z, (4 # 3)); (1%Z, (-1)%Z, (5 # 3)); ((-1)%Z, (-1)%Z, (4 # 3))]
  (3 # 5) (3 # 5)
  [(0%Z, (5 # 6)); (1%Z, (-1 # 6)); ((-1)%Z, (1 # 3))]
  [(0%Z, (5 # 6)); (1%Z, (1 # 3)); ((-1)%Z, (-1 # 6))].
(** weno.f90:46: sigma2, omega2, omega5, fr2 and fr5 of weno5 *)
Definition weno5_2 : stencil := mkStencil
  [
   (0%Z, 0%Z, (10 # 3)); (0%Z, (-1)%Z, (-31 # 3)); (0%Z, (-2)%Z, (11 # 3)); ((-1)%Z, (-1)%Z, (25 # 3)); ((-1)%Z, (-2)%Z, (-19 # 3)); ((-2)%Z, (-2)%Z, (4 # 3))]
  (3 # 10) (1 # 10)
  [(0%Z, (1 # 3)); ((-1)%Z, (5 # 6)); ((-2)%Z, (-1 # 6))]
  [(0%Z, (11 # 6)); ((-1)%Z, (-7 # 6)); ((-2)%Z, (1 # 3))].
(** weno.f90:5-83 weno5 *)
Definition weno5_table : list stencil := [weno5_0; weno5_1; weno5_2].

(** weno.f90:119: sigma0, omega0, omega4, fr0 and fr4 of weno7 *)
Definition weno7_0 : stencil := mkStencil
  [
   (0%Z, 0%Z, (2107 # 240)); (0%Z, 1%Z, (-1567 # 40)); (0%Z, 2%Z, (3521 # 120)); (0%Z, 3%Z, (-309 # 40)); (1%Z, 1%Z, (11003 # 240));
   (1%Z, 2%Z, (-8623 # 120)); (1%Z, 3%Z, (2321 # 120)); (2%Z, 2%Z, (7043 # 240)); (2%Z, 3%Z, (-647 # 40)); (3%Z, 3%Z, (547 # 240))]
  (1 # 35) (4 # 35)
  [(0%Z, (25 # 12)); (1%Z, (-23 # 12)); (2%Z, (13 # 12)); (3%Z, (-1 # 4))]
  [(0%Z, (1 # 4)); (1%Z, (13 # 12)); (2%Z, (-5 # 12)); (3%Z, (1 # 12))].
(** weno.f90:128: sigma1, omega1, omega5, fr1 and fr5 of weno7 *)
Definition weno7_1 : stencil := mkStencil
  [
   (0%Z, 0%Z, (3443 # 240)); (0%Z, 1%Z, (-2983 # 120)); (0%Z, 2%Z, (267 # 40)); (0%Z, (-1)%Z, (-1261 # 120)); (1%Z, 1%Z, (2843 # 240));
   (1%Z, 2%Z, (-821 # 120)); (1%Z, (-1)%Z, (961 # 120)); (2%Z, 2%Z, (89 # 80)); (2%Z, (-1)%Z, (-247 # 120)); ((-1)%Z, (-1)%Z, (547 # 240))]
  (12 # 35) (18 # 35)
  [(0%Z, (13 # 12)); (1%Z, (-5 # 12)); (2%Z, (1 # 12)); ((-1)%Z, (1 # 4))]
  [(0%Z, (7 # 12)); (1%Z, (7 # 12)); (2%Z, (-1 # 12)); ((-1)%Z, (-1 # 12))].
(** weno.f90:138: sigma2, omega2, omega6, fr2 and fr6 of weno7 *)
Definition weno7_2 : stencil := mkStencil
  [
   (0%Z, 0%Z, (3443 # 240)); (0%Z, 1%Z, (-1261 # 120)); (0%Z, (-1)%Z, (-2983 # 120)); (0%Z, (-2)%Z, (267 # 40)); (1%Z, 1%Z, (547 # 240));
   (1%Z, (-1)%Z, (961 # 120)); (1%Z, (-2)%Z, (-247 # 120)); ((-1)%Z, (-1)%Z, (2843 # 240)); ((-1)%Z, (-2)%Z, (-821 # 120)); ((-2)%Z, (-2)%Z, (89 # 80))]
  (18 # 35) (12 # 35)
  [(0%Z, (7 # 12)); (1%Z, (-1 # 12)); ((-1)%Z, (7 # 12)); ((-2)%Z, (-1 # 12))]
  [(0%Z, (13 # 12)); (1%Z, (1 # 4)); ((-1)%Z, (-5 # 12)); ((-2)%Z, (1 # 12))].
(** weno.f90:148: sigma3, omega3, omega7, fr3 and fr7 of weno7 *)
Definition weno7_3 : stencil := mkStencil
  [
   (0%Z, 0%Z, (2107 # 240)); (0%Z, (-1)%Z, (-1567 # 40)); (0%Z, (-2)%Z, (3521 # 120)); (0%Z, (-3)%Z, (-309 # 40)); ((-1)%Z, (-1)%Z, (11003 # 240));
   ((-1)%Z, (-2)%Z, (-8623 # 120)); ((-1)%Z, (-3)%Z, (2321 # 120)); ((-2)%Z, (-2)%Z, (7043 # 240)); ((-2)%Z, (-3)%Z, (-647 # 40));
   ((-3)%Z, (-3)%Z, (547 # 240))]
  (4 # 35) (1 # 35)
  [(0%Z, (1 # 4)); ((-1)%Z, (13 # 12)); ((-2)%Z, (-5 # 12)); ((-3)%Z, (1 # 12))]
  [(0%Z, (25 # 12)); ((-1)%Z, (-23 # 12)); ((-2)%Z, (13 # 12)); ((-3)%Z, (-1 # 4))].
(** weno.f90:85-201 weno7 *)
Definition weno7_table : list stencil := [weno7_0; weno7_1; weno7_2; weno7_3].

(** weno.f90:242: sigma0, omega0, omega5, fr0 and fr5 of weno9 *)
Definition weno9_0 : stencil := mkStencil
  [
   (0%Z, 0%Z, (53959 # 2520)); (0%Z, 1%Z, (-649501 # 5040)); (0%Z, 2%Z, (252941 # 1680)); (0%Z, 3%Z, (-411487 # 5040));
   (0%Z, 4%Z, (86329 # 5040)); (1%Z, 1%Z, (1020563 # 5040)); (1%Z, 2%Z, (-68391 # 140)); (1%Z, 3%Z, (679229 # 2520));
   (1%Z, 4%Z, (-288007 # 5040)); (2%Z, 2%Z, (507131 # 1680)); (2%Z, 3%Z, (-142033 # 420)); (2%Z, 4%Z, (121621 # 1680));
   (3%Z, 3%Z, (482963 # 5040)); (3%Z, 4%Z, (-208501 # 5040)); (4%Z, 4%Z, (11329 # 2520))]
  (1 # 126) (5 # 126)
  [(0%Z, (137 # 60)); (1%Z, (-163 # 60)); (2%Z, (137 # 60)); (3%Z, (-21 # 20)); (4%Z, (1 # 5))]
  [(0%Z, (1 # 5)); (1%Z, (77 # 60)); (2%Z, (-43 # 60)); (3%Z, (17 # 60)); (4%Z, (-1 # 20))].
(** weno.f90:257: sigma1, omega1, omega6, fr1 and fr6 of weno9 *)
Definition weno9_1 : stencil := mkStencil
  [
   (0%Z, 0%Z, (242723 # 5040)); (0%Z, 1%Z, (-25499 # 210)); (0%Z, 2%Z, (168509 # 2520)); (0%Z, 3%Z, (-70237 # 5040));
   (0%Z, (-1)%Z, (-140251 # 5040)); (1%Z, 1%Z, (135431 # 1680)); (1%Z, 2%Z, (-3229 # 35)); (1%Z, 3%Z, (33071 # 1680));
   (1%Z, (-1)%Z, (55051 # 1680)); (2%Z, 2%Z, (138563 # 5040)); (2%Z, 3%Z, (-60871 # 5040)); (2%Z, (-1)%Z, (-88297 # 5040));
   (3%Z, 3%Z, (1727 # 1260)); (3%Z, (-1)%Z, (18079 # 5040)); ((-1)%Z, (-1)%Z, (11329 # 2520))]
  (10 # 63) (20 # 63)
  [(0%Z, (77 # 60)); (1%Z, (-43 # 60)); (2%Z, (17 # 60)); (3%Z, (-1 # 20)); ((-1)%Z, (1 # 5))]
  [(0%Z, (9 # 20)); (1%Z, (47 # 60)); (2%Z, (-13 # 60)); (3%Z, (1 # 30)); ((-1)%Z, (-1 # 20))].
(** weno.f90:272: sigma2, omega2, omega7, fr2 and fr7 of weno9 *)
Definition weno9_2 : stencil := mkStencil
  [
   (0%Z, 0%Z, (77051 # 1680)); (0%Z, 1%Z, (-24923 # 420)); (0%Z, 2%Z, (7547 # 560)); (0%Z, (-1)%Z, (-24923 # 420));
   (0%Z, (-2)%Z, (7547 # 560)); (1%Z, 1%Z, (104963 # 5040)); (1%Z, 2%Z, (-51001 # 5040)); (1%Z, (-1)%Z, (89549 # 2520));
   (1%Z, (-2)%Z, (-38947 # 5040)); (2%Z, 2%Z, (1727 # 1260)); (2%Z, (-1)%Z, (-38947 # 5040)); (2%Z, (-2)%Z, (8209 # 5040));
   ((-1)%Z, (-1)%Z, (104963 # 5040)); ((-1)%Z, (-2)%Z, (-51001 # 5040)); ((-2)%Z, (-2)%Z, (1727 # 1260))]
  (10 # 21) (10 # 21)
  [(0%Z, (47 # 60)); (1%Z, (-13 # 60)); (2%Z, (1 # 30)); ((-1)%Z, (9 # 20)); ((-2)%Z, (-1 # 20))]
  [(0%Z, (47 # 60)); (1%Z, (9 # 20)); (2%Z, (-1 # 20)); ((-1)%Z, (-13 # 60)); ((-2)%Z, (1 # 30))].
(** weno.f90:287: sigma3, omega3, omega8, fr3 and fr8 of weno9 *)
Definition weno9_3 : stencil := mkStencil
  [
   (0%Z, 0%Z, (242723 # 5040)); (0%Z, 1%Z, (-140251 # 5040)); (0%Z, (-1)%Z, (-25499 # 210)); (0%Z, (-2)%Z, (168509 # 2520));
   (0%Z, (-3)%Z, (-70237 # 5040)); (1%Z, 1%Z, (11329 # 2520)); (1%Z, (-1)%Z, (55051 # 1680)); (1%Z, (-2)%Z, (-88297 # 5040));
   (1%Z, (-3)%Z, (18079 # 5040)); ((-1)%Z, (-1)%Z, (135431 # 1680)); ((-1)%Z, (-2)%Z, (-3229 # 35)); ((-1)%Z, (-3)%Z, (33071 # 1680));
   ((-2)%Z, (-2)%Z, (138563 # 5040)); ((-2)%Z, (-3)%Z, (-60871 # 5040)); ((-3)%Z, (-3)%Z, (1727 # 1260))]
  (20 # 63) (10 # 63)
  [(0%Z, (9 # 20)); (1%Z, (-1 # 20)); ((-1)%Z, (47 # 60)); ((-2)%Z, (-13 # 60)); ((-3)%Z, (1 # 30))]
  [(0%Z, (77 # 60)); (1%Z, (1 # 5)); ((-1)%Z, (-43 # 60)); ((-2)%Z, (17 # 60)); ((-3)%Z, (-1 # 20))].
(** weno.f90:302: sigma4, omega4, omega9, fr4 and fr9 of weno9 *)
Definition weno9_4 : stencil := mkStencil
  [
   (0%Z, 0%Z, (53959 # 2520)); (0%Z, (-1)%Z, (-649501 # 5040)); (0%Z, (-2)%Z, (252941 # 1680)); (0%Z, (-3)%Z, (-411487 # 5040));
   (0%Z, (-4)%Z, (86329 # 5040)); ((-1)%Z, (-1)%Z, (1020563 # 5040)); ((-1)%Z, (-2)%Z, (-68391 # 140)); ((-1)%Z, (-3)%Z, (679229 # 2520));
   ((-1)%Z, (-4)%Z, (-288007 # 5040)); ((-2)%Z, (-2)%Z, (507131 # 1680)); ((-2)%Z, (-3)%Z, (-142033 # 420)); ((-2)%Z, (-4)%Z, (121621 # 1680));
   ((-3)%Z, (-3)%Z, (482963 # 5040)); ((-3)%Z, (-4)%Z, (-208501 # 5040)); ((-4)%Z, (-4)%Z, (11329 # 2520))]
  (5 # 126) (1 # 126)
  [(0%Z, (1 # 5)); ((-1)%Z, (77 # 60)); ((-2)%Z, (-43 # 60)); ((-3)%Z, (17 # 60)); ((-4)%Z, (-1 # 20))]
  [(0%Z, (137 # 60)); ((-1)%Z, (-163 # 60)); ((-2)%Z, (137 # 60)); ((-3)%Z, (-21 # 20)); ((-4)%Z, (1 # 5))].
(** weno.f90:203-375 weno9 *)
Definition weno9_table : list stencil := [weno9_0; weno9_1; weno9_2; weno9_3; weno9_4].

(** weno.f90:421: sigma0, omega0, omega6, fr0 and fr6 of weno11 *)
Definition weno11_0 : stencil := mkStencil
  [
   (0%Z, 0%Z, (6150211 # 120960)); (0%Z, 1%Z, (-2966279 # 7560)); (0%Z, 2%Z, (4762921 # 7560)); (0%Z, 3%Z, (-15848531 # 30240));
   (0%Z, 4%Z, (2706017 # 12096)); (0%Z, 5%Z, (-235637 # 6048)); (1%Z, 1%Z, (31617079 # 40320)); (1%Z, 2%Z, (-25980937 # 10080));
   (1%Z, 3%Z, (32862709 # 15120)); (1%Z, 4%Z, (-1048211 # 1120)); (1%Z, 5%Z, (661145 # 4032)); (2%Z, 2%Z, (21703781 # 10080));
   (2%Z, 3%Z, (-6937561 # 1890)); (2%Z, 4%Z, (2674951 # 1680)); (2%Z, 5%Z, (-314063 # 1120)); (3%Z, 3%Z, (47689393 # 30240));
   (3%Z, 4%Z, (-41615261 # 30240)); (3%Z, 5%Z, (1840141 # 7560)); (4%Z, 4%Z, (12160229 # 40320)); (4%Z, 5%Z, (-539591 # 5040));
   (5%Z, 5%Z, (384187 # 40320))]
  (1 # 462) (1 # 77)
  [(0%Z, (49 # 20)); (1%Z, (-71 # 20)); (2%Z, (79 # 20)); (3%Z, (-163 # 60)); (4%Z, (31 # 30)); (5%Z, (-1 # 6))]
  [(0%Z, (1 # 6)); (1%Z, (29 # 20)); (2%Z, (-21 # 20)); (3%Z, (37 # 60)); (4%Z, (-13 # 60)); (5%Z, (1 # 30))].
(** weno.f90:442: sigma1, omega1, omega7, fr1 and fr7 of weno11 *)
Definition weno11_1 : stencil := mkStencil
  [
   (0%Z, 0%Z, (19365967 # 120960)); (0%Z, 1%Z, (-16306061 # 30240)); (0%Z, 2%Z, (6881719 # 15120)); (0%Z, 3%Z, (-5877617 # 30240));
   (0%Z, 4%Z, (2033509 # 60480)); (0%Z, (-1)%Z, (-1139749 # 15120)); (1%Z, 1%Z, (4721851 # 10080)); (1%Z, 2%Z, (-169859 # 210));
   (1%Z, 3%Z, (5300629 # 15120)); (1%Z, 4%Z, (-68601 # 1120)); (1%Z, (-1)%Z, (61427 # 504)); (2%Z, 2%Z, (1197047 # 3360));
   (2%Z, 3%Z, (-9478331 # 30240)); (2%Z, 4%Z, (139471 # 2520)); (2%Z, (-1)%Z, (-1015303 # 10080)); (3%Z, 3%Z, (8449957 # 120960));
   (3%Z, 4%Z, (-188483 # 7560)); (3%Z, (-1)%Z, (2567287 # 60480)); (4%Z, 4%Z, (90593 # 40320)); (4%Z, (-1)%Z, (-73379 # 10080));
   ((-1)%Z, (-1)%Z, (384187 # 40320))]
  (5 # 77) (25 # 154)
  [(0%Z, (29 # 20)); (1%Z, (-21 # 20)); (2%Z, (37 # 60)); (3%Z, (-13 # 60)); (4%Z, (1 # 30)); ((-1)%Z, (1 # 6))]
  [(0%Z, (11 # 30)); (1%Z, (19 # 20)); (2%Z, (-23 # 60)); (3%Z, (7 # 60)); (4%Z, (-1 # 60)); ((-1)%Z, (-1 # 30))].
(** weno.f90:463: sigma2, omega2, omega8, fr2 and fr8 of weno11 *)
Definition weno11_2 : stencil := mkStencil
  [
   (0%Z, 0%Z, (4877743 # 30240)); (0%Z, 1%Z, (-559651 # 1890)); (0%Z, 2%Z, (1991239 # 15120)); (0%Z, 3%Z, (-139633 # 6048));
   (0%Z, (-1)%Z, (-5106971 # 30240)); (0%Z, (-2)%Z, (255397 # 7560)); (1%Z, 1%Z, (159219 # 1120)); (1%Z, 2%Z, (-1323367 # 10080));
   (1%Z, 3%Z, (178999 # 7560)); (1%Z, (-1)%Z, (248681 # 1680)); (1%Z, (-2)%Z, (-288521 # 10080)); (2%Z, 2%Z, (141661 # 4480));
   (2%Z, 3%Z, (-178747 # 15120)); (2%Z, (-1)%Z, (-643999 # 10080)); (2%Z, (-2)%Z, (243127 # 20160)); (3%Z, 3%Z, (139633 # 120960));
   (3%Z, (-1)%Z, (662503 # 60480)); (3%Z, (-2)%Z, (-12281 # 6048)); ((-1)%Z, (-1)%Z, (1884439 # 40320)); ((-1)%Z, (-2)%Z, (-1240 # 63));
   ((-2)%Z, (-2)%Z, (90593 # 40320))]
  (25 # 77) (100 # 231)
  [(0%Z, (19 # 20)); (1%Z, (-23 # 60)); (2%Z, (7 # 60)); (3%Z, (-1 # 60)); ((-1)%Z, (11 # 30)); ((-2)%Z, (-1 # 30))]
  [(0%Z, (37 # 60)); (1%Z, (37 # 60)); (2%Z, (-2 # 15)); (3%Z, (1 # 60)); ((-1)%Z, (-2 # 15)); ((-2)%Z, (1 # 60))].
(** weno.f90:484: sigma3, omega3, omega9, fr3 and fr9 of weno11 *)
Definition weno11_3 : stencil := mkStencil
  [
   (0%Z, 0%Z, (4877743 # 30240)); (0%Z, 1%Z, (-5106971 # 30240)); (0%Z, 2%Z, (255397 # 7560)); (0%Z, (-1)%Z, (-559651 # 1890));
   (0%Z, (-2)%Z, (1991239 # 15120)); (0%Z, (-3)%Z, (-139633 # 6048)); (1%Z, 1%Z, (1884439 # 40320)); (1%Z, 2%Z, (-1240 # 63));
   (1%Z, (-1)%Z, (248681 # 1680)); (1%Z, (-2)%Z, (-643999 # 10080)); (1%Z, (-3)%Z, (662503 # 60480)); (2%Z, 2%Z, (90593 # 40320));
   (2%Z, (-1)%Z, (-288521 # 10080)); (2%Z, (-2)%Z, (243127 # 20160)); (2%Z, (-3)%Z, (-12281 # 6048)); ((-1)%Z, (-1)%Z, (159219 # 1120));
   ((-1)%Z, (-2)%Z, (-1323367 # 10080)); ((-1)%Z, (-3)%Z, (178999 # 7560)); ((-2)%Z, (-2)%Z, (141661 # 4480)); ((-2)%Z, (-3)%Z, (-178747 # 15120));
   ((-3)%Z, (-3)%Z, (139633 # 120960))]
  (100 # 231) (25 # 77)
  [(0%Z, (37 # 60)); (1%Z, (-2 # 15)); (2%Z, (1 # 60)); ((-1)%Z, (37 # 60)); ((-2)%Z, (-2 # 15)); ((-3)%Z, (1 # 60))]
  [(0%Z, (19 # 20)); (1%Z, (11 # 30)); (2%Z, (-1 # 30)); ((-1)%Z, (-23 # 60)); ((-2)%Z, (7 # 60)); ((-3)%Z, (-1 # 60))].
(** weno.f90:505: sigma4, omega4, omega10, fr4 and fr10 of weno11 *)
Definition weno11_4 : stencil := mkStencil
  [
   (0%Z, 0%Z, (19365967 # 120960)); (0%Z, 1%Z, (-1139749 # 15120)); (0%Z, (-1)%Z, (-16306061 # 30240)); (0%Z, (-2)%Z, (6881719 # 15120));
   (0%Z, (-3)%Z, (-5877617 # 30240)); (0%Z, (-4)%Z, (2033509 # 60480)); (1%Z, 1%Z, (384187 # 40320)); (1%Z, (-1)%Z, (61427 # 504));
   (1%Z, (-2)%Z, (-1015303 # 10080)); (1%Z, (-3)%Z, (2567287 # 60480)); (1%Z, (-4)%Z, (-73379 # 10080)); ((-1)%Z, (-1)%Z, (4721851 # 10080));
   ((-1)%Z, (-2)%Z, (-169859 # 210)); ((-1)%Z, (-3)%Z, (5300629 # 15120)); ((-1)%Z, (-4)%Z, (-68601 # 1120)); ((-2)%Z, (-2)%Z, (1197047 # 3360));
   ((-2)%Z, (-3)%Z, (-9478331 # 30240)); ((-2)%Z, (-4)%Z, (139471 # 2520)); ((-3)%Z, (-3)%Z, (8449957 # 120960)); ((-3)%Z, (-4)%Z, (-188483 # 7560));
   ((-4)%Z, (-4)%Z, (90593 # 40320))]
  (25 # 154) (5 # 77)
  [(0%Z, (11 # 30)); (1%Z, (-1 # 30)); ((-1)%Z, (19 # 20)); ((-2)%Z, (-23 # 60)); ((-3)%Z, (7 # 60)); ((-4)%Z, (-1 # 60))]
  [(0%Z, (29 # 20)); (1%Z, (1 # 6)); ((-1)%Z, (-21 # 20)); ((-2)%Z, (37 # 60)); ((-3)%Z, (-13 # 60)); ((-4)%Z, (1 # 30))].
(** weno.f90:526: sigma5, omega5, omega11, fr5 and fr11 of weno11 *)
Definition weno11_5 : stencil := mkStencil
  [
   (0%Z, 0%Z, (6150211 # 120960)); (0%Z, (-1)%Z, (-2966279 # 7560)); (0%Z, (-2)%Z, (4762921 # 7560)); (0%Z, (-3)%Z, (-15848531 # 30240));
   (0%Z, (-4)%Z, (2706017 # 12096)); (0%Z, (-5)%Z, (-235637 # 6048)); ((-1)%Z, (-1)%Z, (31617079 # 40320));
   ((-1)%Z, (-2)%Z, (-25980937 # 10080)); ((-1)%Z, (-3)%Z, (32862709 # 15120)); ((-1)%Z, (-4)%Z, (-1048211 # 1120));
   ((-1)%Z, (-5)%Z, (661145 # 4032)); ((-2)%Z, (-2)%Z, (21703781 # 10080)); ((-2)%Z, (-3)%Z, (-6937561 # 1890)); ((-2)%Z, (-4)%Z, (2674951 # 1680));
   ((-2)%Z, (-5)%Z, (-314063 # 1120)); ((-3)%Z, (-3)%Z, (47689393 # 30240)); ((-3)%Z, (-4)%Z, (-41615261 # 30240));
   ((-3)%Z, (-5)%Z, (1840141 # 7560)); ((-4)%Z, (-4)%Z, (12160229 # 40320)); ((-4)%Z, (-5)%Z, (-539591 # 5040)); ((-5)%Z, (-5)%Z, (384187 # 40320))]
  (1 # 77) (1 # 462)
  [(0%Z, (1 # 6)); ((-1)%Z, (29 # 20)); ((-2)%Z, (-21 # 20)); ((-3)%Z, (37 # 60)); ((-4)%Z, (-13 # 60)); ((-5)%Z, (1 # 30))]
  [(0%Z, (49 # 20)); ((-1)%Z, (-71 # 20)); ((-2)%Z, (79 # 20)); ((-3)%Z, (-163 # 60)); ((-4)%Z, (31 # 30)); ((-5)%Z, (-1 # 6))].
(** weno.f90:377-626 weno11 *)
Definition weno11_table : list stencil := [weno11_0; weno11_1; weno11_2; weno11_3; weno11_4; weno11_5].

(** weno.f90:677: sigma0, omega0, omega7, fr0 and fr7 of weno13 *)
Definition weno13_0 : stencil := mkStencil
  [
   (0%Z, 0%Z, (897207163 # 7484400)); (0%Z, 1%Z, (-22763092357 # 19958400)); (0%Z, 2%Z, (46808583631 # 19958400));
   (0%Z, 3%Z, (-39645439643 # 14968800)); (0%Z, 4%Z, (8579309749 # 4989600)); (0%Z, 5%Z, (-2416885043 # 3991680));
   (0%Z, 6%Z, (5391528799 # 59875200)); (1%Z, 1%Z, (6182612731 # 2217600)); (1%Z, 2%Z, (-8623431623 # 739200));
   (1%Z, 3%Z, (66440049371 # 4989600)); (1%Z, 4%Z, (-19308505679 # 2217600)); (1%Z, 5%Z, (3417057367 # 1108800));
   (1%Z, 6%Z, (-9181961959 # 19958400)); (2%Z, 2%Z, (1369404749 # 110880)); (2%Z, 3%Z, (-28364892607 # 997920));
   (2%Z, 4%Z, (8290771913 # 443520)); (2%Z, 5%Z, (-14734178999 # 2217600)); (2%Z, 6%Z, (4964771899 # 4989600));
   (3%Z, 3%Z, (49256859919 # 2993760)); (3%Z, 4%Z, (-21693002767 # 997920)); (3%Z, 5%Z, (38683385051 # 4989600));
   (3%Z, 6%Z, (-17425032203 # 14968800)); (4%Z, 4%Z, (199730921 # 27720)); (4%Z, 5%Z, (-3809437823 # 739200));
   (4%Z, 6%Z, (15476926351 # 19958400)); (5%Z, 5%Z, (2047941883 # 2217600)); (5%Z, 6%Z, (-5556669277 # 19958400));
   (6%Z, 6%Z, (62911297 # 2993760))]
  (1 # 1716) (7 # 1716)
  [(0%Z, (363 # 140)); (1%Z, (-617 # 140)); (2%Z, (853 # 140)); (3%Z, (-2341 # 420)); (4%Z, (667 # 210)); (5%Z, (-43 # 42));
   (6%Z, (1 # 7))]
  [(0%Z, (1 # 7)); (1%Z, (223 # 140)); (2%Z, (-197 # 140)); (3%Z, (153 # 140)); (4%Z, (-241 # 420)); (5%Z, (37 # 210));
   (6%Z, (-1 # 42))].
(** weno.f90:705: sigma1, omega1, omega8, fr1 and fr8 of weno13 *)
Definition weno13_1 : stencil := mkStencil
  [
   (0%Z, 0%Z, (127942497 # 246400)); (0%Z, 1%Z, (-14684933057 # 6652800)); (0%Z, 2%Z, (12601009501 # 4989600));
   (0%Z, 3%Z, (-405382961 # 246400)); (0%Z, 4%Z, (1924032511 # 3326400)); (0%Z, 5%Z, (-341910757 # 3991680));
   (0%Z, (-1)%Z, (-4074544787 # 19958400)); (1%Z, 1%Z, (796358777 # 332640)); (1%Z, 2%Z, (-616410313 # 110880));
   (1%Z, 3%Z, (4868089189 # 1330560)); (1%Z, 4%Z, (-8619440987 # 6652800)); (1%Z, 5%Z, (320782183 # 1663200));
   (1%Z, (-1)%Z, (2811067067 # 6652800)); (2%Z, 2%Z, (9780057169 # 2993760)); (2%Z, 3%Z, (-4330640057 # 997920));
   (2%Z, 4%Z, (857838469 # 554400)); (2%Z, 5%Z, (-3465607493 # 14968800)); (2%Z, (-1)%Z, (-7124638253 # 14968800));
   (3%Z, 3%Z, (53678683 # 36960)); (3%Z, 4%Z, (-6932480657 # 6652800)); (3%Z, 5%Z, (3126718481 # 19958400));
   (3%Z, (-1)%Z, (1531307249 # 4989600)); (4%Z, 4%Z, (1250007643 # 6652800)); (4%Z, 5%Z, (-377474689 # 6652800));
   (4%Z, (-1)%Z, (-712745603 # 6652800)); (5%Z, 5%Z, (64361771 # 14968800)); (5%Z, (-1)%Z, (945155329 # 59875200));
   ((-1)%Z, (-1)%Z, (62911297 # 2993760))]
  (7 # 286) (21 # 286)
  [(0%Z, (223 # 140)); (1%Z, (-197 # 140)); (2%Z, (153 # 140)); (3%Z, (-241 # 420)); (4%Z, (37 # 210)); (5%Z, (-1 # 42));
   ((-1)%Z, (1 # 7))]
  [(0%Z, (13 # 42)); (1%Z, (153 # 140)); (2%Z, (-241 # 420)); (3%Z, (109 # 420)); (4%Z, (-31 # 420)); (5%Z, (1 # 105));
   ((-1)%Z, (-1 # 42))].
(** weno.f90:733: sigma2, omega2, omega9, fr2 and fr9 of weno13 *)
Definition weno13_2 : stencil := mkStencil
  [
   (0%Z, 0%Z, (34187317 # 55440)); (0%Z, 1%Z, (-1476618887 # 997920)); (0%Z, 2%Z, (1312114459 # 1330560));
   (0%Z, 3%Z, (-773749439 # 2217600)); (0%Z, 4%Z, (256556849 # 4989600)); (0%Z, (-1)%Z, (-3573798407 # 6652800));
   (0%Z, (-2)%Z, (1894705391 # 19958400)); (1%Z, 1%Z, (2726585359 # 2993760)); (1%Z, 2%Z, (-412424029 # 332640));
   (1%Z, 3%Z, (2224538011 # 4989600)); (1%Z, 4%Z, (-995600723 # 14968800)); (1%Z, (-1)%Z, (1042531337 # 1663200));
   (1%Z, (-2)%Z, (-1618284323 # 14968800)); (2%Z, 2%Z, (143270957 # 332640)); (2%Z, 3%Z, (-2096571887 # 6652800));
   (2%Z, 4%Z, (105706999 # 2217600)); (2%Z, (-1)%Z, (-2725575317 # 6652800)); (2%Z, (-2)%Z, (115524053 # 1663200));
   (3%Z, 3%Z, (130013563 # 2217600)); (3%Z, 4%Z, (-359321429 # 19958400)); (3%Z, (-1)%Z, (475321093 # 3326400));
   (3%Z, (-2)%Z, (-95508139 # 3991680)); (4%Z, 4%Z, (2627203 # 1871100)); (4%Z, (-1)%Z, (-15401629 # 739200));
   (4%Z, (-2)%Z, (8279479 # 2395008)); ((-1)%Z, (-1)%Z, (806338417 # 6652800)); ((-1)%Z, (-2)%Z, (-295455983 # 6652800));
   ((-2)%Z, (-2)%Z, (64361771 # 14968800))]
  (105 # 572) (175 # 572)
  [(0%Z, (153 # 140)); (1%Z, (-241 # 420)); (2%Z, (109 # 420)); (3%Z, (-31 # 420)); (4%Z, (1 # 105)); ((-1)%Z, (13 # 42));
   ((-2)%Z, (-1 # 42))]
  [(0%Z, (107 # 210)); (1%Z, (319 # 420)); (2%Z, (-101 # 420)); (3%Z, (5 # 84)); (4%Z, (-1 # 140)); ((-1)%Z, (-19 # 210));
   ((-2)%Z, (1 # 105))].
(** weno.f90:761: sigma3, omega3, omega10, fr3 and fr10 of weno13 *)
Definition weno13_3 : stencil := mkStencil
  [
   (0%Z, 0%Z, (1607739169 # 2993760)); (0%Z, 1%Z, (-790531177 # 997920)); (0%Z, 2%Z, (1506944981 # 4989600));
   (0%Z, 3%Z, (-701563133 # 14968800)); (0%Z, (-1)%Z, (-790531177 # 997920)); (0%Z, (-2)%Z, (1506944981 # 4989600));
   (0%Z, (-3)%Z, (-701563133 # 14968800)); (1%Z, 1%Z, (16790707 # 55440)); (1%Z, 2%Z, (-176498513 # 739200));
   (1%Z, 3%Z, (761142961 # 19958400)); (1%Z, (-1)%Z, (250523543 # 443520)); (1%Z, (-2)%Z, (-464678369 # 2217600));
   (1%Z, (-3)%Z, (158544319 # 4989600)); (2%Z, 2%Z, (108444169 # 2217600)); (2%Z, 3%Z, (-323333323 # 19958400));
   (2%Z, (-1)%Z, (-464678369 # 2217600)); (2%Z, (-2)%Z, (84263749 # 1108800)); (2%Z, (-3)%Z, (-225623953 # 19958400));
   (3%Z, 3%Z, (2627203 # 1871100)); (3%Z, (-1)%Z, (158544319 # 4989600)); (3%Z, (-2)%Z, (-225623953 # 19958400));
   (3%Z, (-3)%Z, (99022657 # 59875200)); ((-1)%Z, (-1)%Z, (16790707 # 55440)); ((-1)%Z, (-2)%Z, (-176498513 # 739200));
   ((-1)%Z, (-3)%Z, (761142961 # 19958400)); ((-2)%Z, (-2)%Z, (108444169 # 2217600)); ((-2)%Z, (-3)%Z, (-323333323 # 19958400));
   ((-3)%Z, (-3)%Z, (2627203 # 1871100))]
  (175 # 429) (175 # 429)
  [(0%Z, (319 # 420)); (1%Z, (-101 # 420)); (2%Z, (5 # 84)); (3%Z, (-1 # 140)); ((-1)%Z, (107 # 210)); ((-2)%Z, (-19 # 210));
   ((-3)%Z, (1 # 105))]
  [(0%Z, (319 # 420)); (1%Z, (107 # 210)); (2%Z, (-19 # 210)); (3%Z, (1 # 105)); ((-1)%Z, (-101 # 420)); ((-2)%Z, (5 # 84));
   ((-3)%Z, (-1 # 140))].
(** weno.f90:789: sigma4, omega4, omega11, fr4 and fr11 of weno13 *)
Definition weno13_4 : stencil := mkStencil
  [
   (0%Z, 0%Z, (34187317 # 55440)); (0%Z, 1%Z, (-3573798407 # 6652800)); (0%Z, 2%Z, (1894705391 # 19958400));
   (0%Z, (-1)%Z, (-1476618887 # 997920)); (0%Z, (-2)%Z, (1312114459 # 1330560)); (0%Z, (-3)%Z, (-773749439 # 2217600));
   (0%Z, (-4)%Z, (256556849 # 4989600)); (1%Z, 1%Z, (806338417 # 6652800)); (1%Z, 2%Z, (-295455983 # 6652800));
   (1%Z, (-1)%Z, (1042531337 # 1663200)); (1%Z, (-2)%Z, (-2725575317 # 6652800)); (1%Z, (-3)%Z, (475321093 # 3326400));
   (1%Z, (-4)%Z, (-15401629 # 739200)); (2%Z, 2%Z, (64361771 # 14968800)); (2%Z, (-1)%Z, (-1618284323 # 14968800));
   (2%Z, (-2)%Z, (115524053 # 1663200)); (2%Z, (-3)%Z, (-95508139 # 3991680)); (2%Z, (-4)%Z, (8279479 # 2395008));
   ((-1)%Z, (-1)%Z, (2726585359 # 2993760)); ((-1)%Z, (-2)%Z, (-412424029 # 332640)); ((-1)%Z, (-3)%Z, (2224538011 # 4989600));
   ((-1)%Z, (-4)%Z, (-995600723 # 14968800)); ((-2)%Z, (-2)%Z, (143270957 # 332640)); ((-2)%Z, (-3)%Z, (-2096571887 # 6652800));
   ((-2)%Z, (-4)%Z, (105706999 # 2217600)); ((-3)%Z, (-3)%Z, (130013563 # 2217600)); ((-3)%Z, (-4)%Z, (-359321429 # 19958400));
   ((-4)%Z, (-4)%Z, (2627203 # 1871100))]
  (175 # 572) (105 # 572)
  [(0%Z, (107 # 210)); (1%Z, (-19 # 210)); (2%Z, (1 # 105)); ((-1)%Z, (319 # 420)); ((-2)%Z, (-101 # 420)); ((-3)%Z, (5 # 84));
   ((-4)%Z, (-1 # 140))]
  [(0%Z, (153 # 140)); (1%Z, (13 # 42)); (2%Z, (-1 # 42)); ((-1)%Z, (-241 # 420)); ((-2)%Z, (109 # 420)); ((-3)%Z, (-31 # 420));
   ((-4)%Z, (1 # 105))].
(** weno.f90:817: sigma5, omega5, omega12, fr5 and fr12 of weno13 *)
Definition weno13_5 : stencil := mkStencil
  [
   (0%Z, 0%Z, (127942497 # 246400)); (0%Z, 1%Z, (-4074544787 # 19958400)); (0%Z, (-1)%Z, (-14684933057 # 6652800));
   (0%Z, (-2)%Z, (12601009501 # 4989600)); (0%Z, (-3)%Z, (-405382961 # 246400)); (0%Z, (-4)%Z, (1924032511 # 3326400));
   (0%Z, (-5)%Z, (-341910757 # 3991680)); (1%Z, 1%Z, (62911297 # 2993760)); (1%Z, (-1)%Z, (2811067067 # 6652800));
   (1%Z, (-2)%Z, (-7124638253 # 14968800)); (1%Z, (-3)%Z, (1531307249 # 4989600)); (1%Z, (-4)%Z, (-712745603 # 6652800));
   (1%Z, (-5)%Z, (945155329 # 59875200)); ((-1)%Z, (-1)%Z, (796358777 # 332640)); ((-1)%Z, (-2)%Z, (-616410313 # 110880));
   ((-1)%Z, (-3)%Z, (4868089189 # 1330560)); ((-1)%Z, (-4)%Z, (-8619440987 # 6652800)); ((-1)%Z, (-5)%Z, (320782183 # 1663200));
   ((-2)%Z, (-2)%Z, (9780057169 # 2993760)); ((-2)%Z, (-3)%Z, (-4330640057 # 997920)); ((-2)%Z, (-4)%Z, (857838469 # 554400));
   ((-2)%Z, (-5)%Z, (-3465607493 # 14968800)); ((-3)%Z, (-3)%Z, (53678683 # 36960)); ((-3)%Z, (-4)%Z, (-6932480657 # 6652800));
   ((-3)%Z, (-5)%Z, (3126718481 # 19958400)); ((-4)%Z, (-4)%Z, (1250007643 # 6652800)); ((-4)%Z, (-5)%Z, (-377474689 # 6652800));
   ((-5)%Z, (-5)%Z, (64361771 # 14968800))]
  (21 # 286) (7 # 286)
  [(0%Z, (13 # 42)); (1%Z, (-1 # 42)); ((-1)%Z, (153 # 140)); ((-2)%Z, (-241 # 420)); ((-3)%Z, (109 # 420)); ((-4)%Z, (-31 # 420));
   ((-5)%Z, (1 # 105))]
  [(0%Z, (223 # 140)); (1%Z, (1 # 7)); ((-1)%Z, (-197 # 140)); ((-2)%Z, (153 # 140)); ((-3)%Z, (-241 # 420)); ((-4)%Z, (37 # 210));
   ((-5)%Z, (-1 # 42))].
(** weno.f90:845: sigma6, omega6, omega13, fr6 and fr13 of weno13 *)
Definition weno13_6 : stencil := mkStencil
  [
   (0%Z, 0%Z, (897207163 # 7484400)); (0%Z, (-1)%Z, (-22763092357 # 19958400)); (0%Z, (-2)%Z, (46808583631 # 19958400));
   (0%Z, (-3)%Z, (-39645439643 # 14968800)); (0%Z, (-4)%Z, (8579309749 # 4989600)); (0%Z, (-5)%Z, (-2416885043 # 3991680));
   (0%Z, (-6)%Z, (5391528799 # 59875200)); ((-1)%Z, (-1)%Z, (6182612731 # 2217600)); ((-1)%Z, (-2)%Z, (-8623431623 # 739200));
   ((-1)%Z, (-3)%Z, (66440049371 # 4989600)); ((-1)%Z, (-4)%Z, (-19308505679 # 2217600)); ((-1)%Z, (-5)%Z, (3417057367 # 1108800));
   ((-1)%Z, (-6)%Z, (-9181961959 # 19958400)); ((-2)%Z, (-2)%Z, (1369404749 # 110880)); ((-2)%Z, (-3)%Z, (-28364892607 # 997920));
   ((-2)%Z, (-4)%Z, (8290771913 # 443520)); ((-2)%Z, (-5)%Z, (-14734178999 # 2217600)); ((-2)%Z, (-6)%Z, (4964771899 # 4989600));
   ((-3)%Z, (-3)%Z, (49256859919 # 2993760)); ((-3)%Z, (-4)%Z, (-21693002767 # 997920)); ((-3)%Z, (-5)%Z, (38683385051 # 4989600));
   ((-3)%Z, (-6)%Z, (-17425032203 # 14968800)); ((-4)%Z, (-4)%Z, (199730921 # 27720)); ((-4)%Z, (-5)%Z, (-3809437823 # 739200));
   ((-4)%Z, (-6)%Z, (15476926351 # 19958400)); ((-5)%Z, (-5)%Z, (2047941883 # 2217600)); ((-5)%Z, (-6)%Z, (-5556669277 # 19958400));
   ((-6)%Z, (-6)%Z, (62911297 # 2993760))]
  (7 # 1716) (1 # 1716)
  [(0%Z, (1 # 7)); ((-1)%Z, (223 # 140)); ((-2)%Z, (-197 # 140)); ((-3)%Z, (153 # 140)); ((-4)%Z, (-241 # 420)); ((-5)%Z, (37 # 210));
   ((-6)%Z, (-1 # 42))]
  [(0%Z, (363 # 140)); ((-1)%Z, (-617 # 140)); ((-2)%Z, (853 # 140)); ((-3)%Z, (-2341 # 420)); ((-4)%Z, (667 # 210)); ((-5)%Z, (-43 # 42));
   ((-6)%Z, (1 # 7))].
(** weno.f90:628-996 weno13 *)
Definition weno13_table : list stencil := [weno13_0; weno13_1; weno13_2; weno13_3; weno13_4; weno13_5; weno13_6].

(** weno.f90:1052: sigma0, omega0, omega8, fr0 and fr8 of weno15 *)
Definition weno15_0 : stencil := mkStencil
  [
   (0%Z, 0%Z, (5870785406797 # 20756736000)); (0%Z, 1%Z, (-3130718954431 # 972972000));
   (0%Z, 2%Z, (36019630238453 # 4447872000)); (0%Z, 3%Z, (-9030771744409 # 778377600)); (0%Z, 4%Z, (7028987165449 # 691891200));
   (0%Z, 5%Z, (-5269260407953 # 972972000)); (0%Z, 6%Z, (50528822994577 # 31135104000));
   (0%Z, 7%Z, (-819100494587 # 3891888000)); (1%Z, 1%Z, (581791881407369 # 62270208000));
   (1%Z, 2%Z, (-185432400549349 # 3891888000)); (1%Z, 3%Z, (428668917728281 # 6227020800));
   (1%Z, 4%Z, (-393303816739 # 6486480)); (1%Z, 5%Z, (1010731494899387 # 31135104000));
   (1%Z, 6%Z, (-12661520644021 # 1297296000)); (1%Z, 7%Z, (39509061792127 # 31135104000));
   (2%Z, 2%Z, (1272280750118197 # 20756736000)); (2%Z, 3%Z, (-6306477584539 # 35380800));
   (2%Z, 4%Z, (982150494698309 # 6227020800)); (2%Z, 5%Z, (-109928049802589 # 1297296000));
   (2%Z, 6%Z, (795325997722517 # 31135104000)); (2%Z, 7%Z, (-6476591199161 # 1945944000));
   (3%Z, 3%Z, (5896382977423 # 45287424)); (3%Z, 4%Z, (-35999233471051 # 155675520)); (3%Z, 5%Z, (775760249154827 # 6227020800));
   (3%Z, 6%Z, (-4882688924777 # 129729600)); (3%Z, 7%Z, (10196716797013 # 2075673600)); (4%Z, 4%Z, (23315424178373 # 226437120));
   (4%Z, 5%Z, (-983492927359 # 8845200)); (4%Z, 6%Z, (41910140004779 # 1245404160)); (4%Z, 7%Z, (-3423798156193 # 778377600));
   (5%Z, 5%Z, (624177436330267 # 20756736000)); (5%Z, 6%Z, (-70944310593109 # 3891888000));
   (5%Z, 7%Z, (10610581100123 # 4447872000)); (6%Z, 6%Z, (172229708657639 # 62270208000));
   (6%Z, 7%Z, (-1410106709147 # 1945944000)); (7%Z, 7%Z, (986005096387 # 20756736000))]
  (1 # 6435) (8 # 6435)
  [(0%Z, (761 # 280)); (1%Z, (-1479 # 280)); (2%Z, (2441 # 280)); (3%Z, (-8357 # 840)); (4%Z, (6343 # 840)); (5%Z, (-613 # 168));
   (6%Z, (57 # 56)); (7%Z, (-1 # 8))]
  [(0%Z, (1 # 8)); (1%Z, (481 # 280)); (2%Z, (-499 # 280)); (3%Z, (481 # 280)); (4%Z, (-1007 # 840)); (5%Z, (463 # 840));
   (6%Z, (-25 # 168)); (7%Z, (1 # 56))].
(** weno.f90:1088: sigma1, omega1, omega9, fr1 and fr9 of weno15 *)
Definition weno15_1 : stencil := mkStencil
  [
   (0%Z, 0%Z, (102080471419559 # 62270208000)); (0%Z, 1%Z, (-32903428273669 # 3891888000));
   (0%Z, 2%Z, (76273513229143 # 6227020800)); (0%Z, 3%Z, (-1397571412901 # 129729600));
   (0%Z, 4%Z, (178922840432597 # 31135104000)); (0%Z, 5%Z, (-2230862726341 # 1297296000));
   (0%Z, 6%Z, (6925711076497 # 31135104000)); (0%Z, (-1)%Z, (-1069457397287 # 1945944000));
   (1%Z, 1%Z, (229456135916827 # 20756736000)); (1%Z, 2%Z, (-11450077957 # 353808)); (1%Z, 3%Z, (178559835040523 # 6227020800));
   (1%Z, 4%Z, (-19952704102349 # 1297296000)); (1%Z, 5%Z, (143887855797947 # 31135104000));
   (1%Z, 6%Z, (-583488131053 # 972972000)); (1%Z, (-1)%Z, (43315366304381 # 31135104000)); (2%Z, 2%Z, (5407733702789 # 226437120));
   (2%Z, 3%Z, (-6630479776771 # 155675520)); (2%Z, 4%Z, (142950967195973 # 6227020800)); (2%Z, 5%Z, (-224563041869 # 32432400));
   (2%Z, 6%Z, (41566759079 # 46126080)); (2%Z, (-1)%Z, (-1550584925161 # 778377600)); (3%Z, 3%Z, (4322531771339 # 226437120));
   (3%Z, 4%Z, (-29244985495 # 1415232)); (3%Z, 5%Z, (38941083744793 # 6227020800)); (3%Z, 6%Z, (-90744192823 # 111196800));
   (3%Z, (-1)%Z, (721470910481 # 415134720)); (4%Z, 4%Z, (116487285372277 # 20756736000));
   (4%Z, 5%Z, (-13257668940469 # 3891888000)); (4%Z, 6%Z, (13873328286131 # 31135104000));
   (4%Z, (-1)%Z, (-1793558121581 # 1945944000)); (5%Z, 5%Z, (32268504444809 # 62270208000));
   (5%Z, 6%Z, (-132173819131 # 972972000)); (5%Z, (-1)%Z, (1221480056521 # 4447872000)); (6%Z, 6%Z, (26446172491 # 2965248000));
   (6%Z, (-1)%Z, (-137801870867 # 3891888000)); ((-1)%Z, (-1)%Z, (986005096387 # 20756736000))]
  (56 # 6435) (196 # 6435)
  [(0%Z, (481 # 280)); (1%Z, (-499 # 280)); (2%Z, (481 # 280)); (3%Z, (-1007 # 840)); (4%Z, (463 # 840)); (5%Z, (-25 # 168));
   (6%Z, (1 # 56)); ((-1)%Z, (1 # 8))]
  [(0%Z, (15 # 56)); (1%Z, (341 # 280)); (2%Z, (-219 # 280)); (3%Z, (131 # 280)); (4%Z, (-167 # 840)); (5%Z, (43 # 840));
   (6%Z, (-1 # 168)); ((-1)%Z, (-1 # 56))].
(** weno.f90:1124: sigma2, omega2, omega10, fr2 and fr10 of weno15 *)
Definition weno15_2 : stencil := mkStencil
  [
   (0%Z, 0%Z, (49883478342517 # 20756736000)); (0%Z, 1%Z, (-253865691211 # 35380800)); (0%Z, 2%Z, (39896100785477 # 6227020800));
   (0%Z, 3%Z, (-4456767285989 # 1297296000)); (0%Z, 4%Z, (31959522170837 # 31135104000));
   (0%Z, 5%Z, (-256879392281 # 1945944000)); (0%Z, (-1)%Z, (-6905100758509 # 3891888000));
   (0%Z, (-2)%Z, (8624638348211 # 31135104000)); (1%Z, 1%Z, (1231949387723 # 226437120)); (1%Z, 2%Z, (-1532094364651 # 155675520));
   (1%Z, 3%Z, (33191727291659 # 6227020800)); (1%Z, 4%Z, (-41643930661 # 25945920)); (1%Z, 5%Z, (431000077397 # 2075673600));
   (1%Z, (-1)%Z, (3240510296069 # 1245404160)); (1%Z, (-2)%Z, (-310726966393 # 778377600)); (2%Z, 2%Z, (203912134273 # 45287424));
   (2%Z, 3%Z, (-5445142127 # 1105650)); (2%Z, 4%Z, (9306913817431 # 6227020800)); (2%Z, 5%Z, (-151441370209 # 778377600));
   (2%Z, (-1)%Z, (-37187936869 # 16216200)); (2%Z, (-2)%Z, (721220745563 # 2075673600)); (3%Z, 3%Z, (28199161918747 # 20756736000));
   (3%Z, 4%Z, (-3233549114749 # 3891888000)); (3%Z, 5%Z, (3388533713021 # 31135104000));
   (3%Z, (-1)%Z, (37913679009467 # 31135104000)); (3%Z, (-2)%Z, (-25412164549 # 138996000));
   (4%Z, 4%Z, (7965255985319 # 62270208000)); (4%Z, 5%Z, (-65611168187 # 1945944000)); (4%Z, (-1)%Z, (-468561665821 # 1297296000));
   (4%Z, (-2)%Z, (1677021138577 # 31135104000)); (5%Z, 5%Z, (46388292547 # 20756736000));
   (5%Z, (-1)%Z, (1438198790527 # 31135104000)); (5%Z, (-2)%Z, (-26674345787 # 3891888000));
   ((-1)%Z, (-1)%Z, (20863031646089 # 62270208000)); ((-1)%Z, (-2)%Z, (-104391937861 # 972972000));
   ((-2)%Z, (-2)%Z, (26446172491 # 2965248000))]
  (196 # 2145) (392 # 2145)
  [(0%Z, (341 # 280)); (1%Z, (-219 # 280)); (2%Z, (131 # 280)); (3%Z, (-167 # 840)); (4%Z, (43 # 840)); (5%Z, (-1 # 168));
   ((-1)%Z, (15 # 56)); ((-2)%Z, (-1 # 56))]
  [(0%Z, (73 # 168)); (1%Z, (743 # 840)); (2%Z, (-307 # 840)); (3%Z, (113 # 840)); (4%Z, (-9 # 280)); (5%Z, (1 # 280));
   ((-1)%Z, (-11 # 168)); ((-2)%Z, (1 # 168))].
(** weno.f90:1160: sigma3, omega3, omega11, fr3 and fr11 of weno15 *)
Definition weno15_3 : stencil := mkStencil
  [
   (0%Z, 0%Z, (457249528517 # 226437120)); (0%Z, 1%Z, (-595915721251 # 155675520)); (0%Z, 2%Z, (532071643661 # 249080832));
   (0%Z, 3%Z, (-10590149653 # 16216200)); (0%Z, 4%Z, (25116366157 # 296524800)); (0%Z, (-1)%Z, (-5527715497 # 2211300));
   (0%Z, (-2)%Z, (5227966881367 # 6227020800)); (0%Z, (-3)%Z, (-18415814357 # 155675520)); (1%Z, 1%Z, (420341161931 # 226437120));
   (1%Z, 2%Z, (-74851467823 # 35380800)); (1%Z, 3%Z, (4100880843289 # 6227020800)); (1%Z, 4%Z, (-67513265377 # 778377600));
   (1%Z, (-1)%Z, (14416393946891 # 6227020800)); (1%Z, (-2)%Z, (-98765696693 # 129729600)); (1%Z, (-3)%Z, (72812006087 # 691891200));
   (2%Z, 2%Z, (12780967457077 # 20756736000)); (2%Z, 3%Z, (-1521688484269 # 3891888000));
   (2%Z, 4%Z, (1631589107891 # 31135104000)); (2%Z, (-1)%Z, (-1644079167749 # 1297296000));
   (2%Z, (-2)%Z, (12752830987157 # 31135104000)); (2%Z, (-3)%Z, (-108473646221 # 1945944000));
   (3%Z, 3%Z, (3944861897609 # 62270208000)); (3%Z, 4%Z, (-2407377043 # 138996000)); (3%Z, (-1)%Z, (11870432980667 # 31135104000));
   (3%Z, (-2)%Z, (-157580595421 # 1297296000)); (3%Z, (-3)%Z, (508082860927 # 31135104000)); (4%Z, 4%Z, (25116366157 # 20756736000));
   (4%Z, (-1)%Z, (-47469340603 # 972972000)); (4%Z, (-2)%Z, (478185649297 # 31135104000)); (4%Z, (-3)%Z, (-7942541267 # 3891888000));
   ((-1)%Z, (-1)%Z, (16476387815707 # 20756736000)); ((-1)%Z, (-2)%Z, (-2129103852829 # 3891888000));
   ((-1)%Z, (-3)%Z, (2458417783421 # 31135104000)); ((-2)%Z, (-2)%Z, (6047605530599 # 62270208000));
   ((-2)%Z, (-3)%Z, (-56245265927 # 1945944000)); ((-3)%Z, (-3)%Z, (46388292547 # 20756736000))]
  (392 # 1287) (490 # 1287)
  [(0%Z, (743 # 840)); (1%Z, (-307 # 840)); (2%Z, (113 # 840)); (3%Z, (-9 # 280)); (4%Z, (1 # 280)); ((-1)%Z, (73 # 168));
   ((-2)%Z, (-11 # 168)); ((-3)%Z, (1 # 168))]
  [(0%Z, (533 # 840)); (1%Z, (533 # 840)); (2%Z, (-139 # 840)); (3%Z, (29 # 840)); (4%Z, (-1 # 280)); ((-1)%Z, (-139 # 840));
   ((-2)%Z, (29 # 840)); ((-3)%Z, (-1 # 280))].
(** weno.f90:1196: sigma4, omega4, omega12, fr4 and fr12 of weno15 *)
Definition weno15_4 : stencil := mkStencil
  [
   (0%Z, 0%Z, (457249528517 # 226437120)); (0%Z, 1%Z, (-5527715497 # 2211300)); (0%Z, 2%Z, (5227966881367 # 6227020800));
   (0%Z, 3%Z, (-18415814357 # 155675520)); (0%Z, (-1)%Z, (-595915721251 # 155675520)); (0%Z, (-2)%Z, (532071643661 # 249080832));
   (0%Z, (-3)%Z, (-10590149653 # 16216200)); (0%Z, (-4)%Z, (25116366157 # 296524800)); (1%Z, 1%Z, (16476387815707 # 20756736000));
   (1%Z, 2%Z, (-2129103852829 # 3891888000)); (1%Z, 3%Z, (2458417783421 # 31135104000));
   (1%Z, (-1)%Z, (14416393946891 # 6227020800)); (1%Z, (-2)%Z, (-1644079167749 # 1297296000));
   (1%Z, (-3)%Z, (11870432980667 # 31135104000)); (1%Z, (-4)%Z, (-47469340603 # 972972000));
   (2%Z, 2%Z, (6047605530599 # 62270208000)); (2%Z, 3%Z, (-56245265927 # 1945944000)); (2%Z, (-1)%Z, (-98765696693 # 129729600));
   (2%Z, (-2)%Z, (12752830987157 # 31135104000)); (2%Z, (-3)%Z, (-157580595421 # 1297296000));
   (2%Z, (-4)%Z, (478185649297 # 31135104000)); (3%Z, 3%Z, (46388292547 # 20756736000)); (3%Z, (-1)%Z, (72812006087 # 691891200));
   (3%Z, (-2)%Z, (-108473646221 # 1945944000)); (3%Z, (-3)%Z, (508082860927 # 31135104000)); (3%Z, (-4)%Z, (-7942541267 # 3891888000));
   ((-1)%Z, (-1)%Z, (420341161931 # 226437120)); ((-1)%Z, (-2)%Z, (-74851467823 # 35380800)); ((-1)%Z, (-3)%Z, (4100880843289 # 6227020800));
   ((-1)%Z, (-4)%Z, (-67513265377 # 778377600)); ((-2)%Z, (-2)%Z, (12780967457077 # 20756736000));
   ((-2)%Z, (-3)%Z, (-1521688484269 # 3891888000)); ((-2)%Z, (-4)%Z, (1631589107891 # 31135104000));
   ((-3)%Z, (-3)%Z, (3944861897609 # 62270208000)); ((-3)%Z, (-4)%Z, (-2407377043 # 138996000)); ((-4)%Z, (-4)%Z, (25116366157 # 20756736000))]
  (490 # 1287) (392 # 1287)
  [(0%Z, (533 # 840)); (1%Z, (-139 # 840)); (2%Z, (29 # 840)); (3%Z, (-1 # 280)); ((-1)%Z, (533 # 840)); ((-2)%Z, (-139 # 840));
   ((-3)%Z, (29 # 840)); ((-4)%Z, (-1 # 280))]
  [(0%Z, (743 # 840)); (1%Z, (73 # 168)); (2%Z, (-11 # 168)); (3%Z, (1 # 168)); ((-1)%Z, (-307 # 840)); ((-2)%Z, (113 # 840));
   ((-3)%Z, (-9 # 280)); ((-4)%Z, (1 # 280))].
(** weno.f90:1232: sigma5, omega5, omega13, fr5 and fr13 of weno15 *)
Definition weno15_5 : stencil := mkStencil
  [
   (0%Z, 0%Z, (49883478342517 # 20756736000)); (0%Z, 1%Z, (-6905100758509 # 3891888000));
   (0%Z, 2%Z, (8624638348211 # 31135104000)); (0%Z, (-1)%Z, (-253865691211 # 35380800));
   (0%Z, (-2)%Z, (39896100785477 # 6227020800)); (0%Z, (-3)%Z, (-4456767285989 # 1297296000));
   (0%Z, (-4)%Z, (31959522170837 # 31135104000)); (0%Z, (-5)%Z, (-256879392281 # 1945944000));
   (1%Z, 1%Z, (20863031646089 # 62270208000)); (1%Z, 2%Z, (-104391937861 # 972972000));
   (1%Z, (-1)%Z, (3240510296069 # 1245404160)); (1%Z, (-2)%Z, (-37187936869 # 16216200));
   (1%Z, (-3)%Z, (37913679009467 # 31135104000)); (1%Z, (-4)%Z, (-468561665821 # 1297296000));
   (1%Z, (-5)%Z, (1438198790527 # 31135104000)); (2%Z, 2%Z, (26446172491 # 2965248000)); (2%Z, (-1)%Z, (-310726966393 # 778377600));
   (2%Z, (-2)%Z, (721220745563 # 2075673600)); (2%Z, (-3)%Z, (-25412164549 # 138996000)); (2%Z, (-4)%Z, (1677021138577 # 31135104000));
   (2%Z, (-5)%Z, (-26674345787 # 3891888000)); ((-1)%Z, (-1)%Z, (1231949387723 # 226437120));
   ((-1)%Z, (-2)%Z, (-1532094364651 # 155675520)); ((-1)%Z, (-3)%Z, (33191727291659 # 6227020800));
   ((-1)%Z, (-4)%Z, (-41643930661 # 25945920)); ((-1)%Z, (-5)%Z, (431000077397 # 2075673600)); ((-2)%Z, (-2)%Z, (203912134273 # 45287424));
   ((-2)%Z, (-3)%Z, (-5445142127 # 1105650)); ((-2)%Z, (-4)%Z, (9306913817431 # 6227020800)); ((-2)%Z, (-5)%Z, (-151441370209 # 778377600));
   ((-3)%Z, (-3)%Z, (28199161918747 # 20756736000)); ((-3)%Z, (-4)%Z, (-3233549114749 # 3891888000));
   ((-3)%Z, (-5)%Z, (3388533713021 # 31135104000)); ((-4)%Z, (-4)%Z, (7965255985319 # 62270208000));
   ((-4)%Z, (-5)%Z, (-65611168187 # 1945944000)); ((-5)%Z, (-5)%Z, (46388292547 # 20756736000))]
  (392 # 2145) (196 # 2145)
  [(0%Z, (73 # 168)); (1%Z, (-11 # 168)); (2%Z, (1 # 168)); ((-1)%Z, (743 # 840)); ((-2)%Z, (-307 # 840)); ((-3)%Z, (113 # 840));
   ((-4)%Z, (-9 # 280)); ((-5)%Z, (1 # 280))]
  [(0%Z, (341 # 280)); (1%Z, (15 # 56)); (2%Z, (-1 # 56)); ((-1)%Z, (-219 # 280)); ((-2)%Z, (131 # 280)); ((-3)%Z, (-167 # 840));
   ((-4)%Z, (43 # 840)); ((-5)%Z, (-1 # 168))].
(** weno.f90:1268: sigma6, omega6, omega14, fr6 and fr14 of weno15 *)
Definition weno15_6 : stencil := mkStencil
  [
   (0%Z, 0%Z, (102080471419559 # 62270208000)); (0%Z, 1%Z, (-1069457397287 # 1945944000));
   (0%Z, (-1)%Z, (-32903428273669 # 3891888000)); (0%Z, (-2)%Z, (76273513229143 # 6227020800));
   (0%Z, (-3)%Z, (-1397571412901 # 129729600)); (0%Z, (-4)%Z, (178922840432597 # 31135104000));
   (0%Z, (-5)%Z, (-2230862726341 # 1297296000)); (0%Z, (-6)%Z, (6925711076497 # 31135104000));
   (1%Z, 1%Z, (986005096387 # 20756736000)); (1%Z, (-1)%Z, (43315366304381 # 31135104000));
   (1%Z, (-2)%Z, (-1550584925161 # 778377600)); (1%Z, (-3)%Z, (721470910481 # 415134720));
   (1%Z, (-4)%Z, (-1793558121581 # 1945944000)); (1%Z, (-5)%Z, (1221480056521 # 4447872000));
   (1%Z, (-6)%Z, (-137801870867 # 3891888000)); ((-1)%Z, (-1)%Z, (229456135916827 # 20756736000));
   ((-1)%Z, (-2)%Z, (-11450077957 # 353808)); ((-1)%Z, (-3)%Z, (178559835040523 # 6227020800));
   ((-1)%Z, (-4)%Z, (-19952704102349 # 1297296000)); ((-1)%Z, (-5)%Z, (143887855797947 # 31135104000));
   ((-1)%Z, (-6)%Z, (-583488131053 # 972972000)); ((-2)%Z, (-2)%Z, (5407733702789 # 226437120));
   ((-2)%Z, (-3)%Z, (-6630479776771 # 155675520)); ((-2)%Z, (-4)%Z, (142950967195973 # 6227020800));
   ((-2)%Z, (-5)%Z, (-224563041869 # 32432400)); ((-2)%Z, (-6)%Z, (41566759079 # 46126080)); ((-3)%Z, (-3)%Z, (4322531771339 # 226437120));
   ((-3)%Z, (-4)%Z, (-29244985495 # 1415232)); ((-3)%Z, (-5)%Z, (38941083744793 # 6227020800)); ((-3)%Z, (-6)%Z, (-90744192823 # 111196800));
   ((-4)%Z, (-4)%Z, (116487285372277 # 20756736000)); ((-4)%Z, (-5)%Z, (-13257668940469 # 3891888000));
   ((-4)%Z, (-6)%Z, (13873328286131 # 31135104000)); ((-5)%Z, (-5)%Z, (32268504444809 # 62270208000));
   ((-5)%Z, (-6)%Z, (-132173819131 # 972972000)); ((-6)%Z, (-6)%Z, (26446172491 # 2965248000))]
  (196 # 6435) (56 # 6435)
  [(0%Z, (15 # 56)); (1%Z, (-1 # 56)); ((-1)%Z, (341 # 280)); ((-2)%Z, (-219 # 280)); ((-3)%Z, (131 # 280)); ((-4)%Z, (-167 # 840));
   ((-5)%Z, (43 # 840)); ((-6)%Z, (-1 # 168))]
  [(0%Z, (481 # 280)); (1%Z, (1 # 8)); ((-1)%Z, (-499 # 280)); ((-2)%Z, (481 # 280)); ((-3)%Z, (-1007 # 840)); ((-4)%Z, (463 # 840));
   ((-5)%Z, (-25 # 168)); ((-6)%Z, (1 # 56))].
(** weno.f90:1304: sigma7, omega7, omega15, fr7 and fr15 of weno15 *)
Definition weno15_7 : stencil := mkStencil
  [
   (0%Z, 0%Z, (5870785406797 # 20756736000)); (0%Z, (-1)%Z, (-3130718954431 # 972972000));
   (0%Z, (-2)%Z, (36019630238453 # 4447872000)); (0%Z, (-3)%Z, (-9030771744409 # 778377600));
   (0%Z, (-4)%Z, (7028987165449 # 691891200)); (0%Z, (-5)%Z, (-5269260407953 # 972972000));
   (0%Z, (-6)%Z, (50528822994577 # 31135104000)); (0%Z, (-7)%Z, (-819100494587 # 3891888000));
   ((-1)%Z, (-1)%Z, (581791881407369 # 62270208000)); ((-1)%Z, (-2)%Z, (-185432400549349 # 3891888000));
   ((-1)%Z, (-3)%Z, (428668917728281 # 6227020800)); ((-1)%Z, (-4)%Z, (-393303816739 # 6486480));
   ((-1)%Z, (-5)%Z, (1010731494899387 # 31135104000)); ((-1)%Z, (-6)%Z, (-12661520644021 # 1297296000));
   ((-1)%Z, (-7)%Z, (39509061792127 # 31135104000)); ((-2)%Z, (-2)%Z, (1272280750118197 # 20756736000));
   ((-2)%Z, (-3)%Z, (-6306477584539 # 35380800)); ((-2)%Z, (-4)%Z, (982150494698309 # 6227020800));
   ((-2)%Z, (-5)%Z, (-109928049802589 # 1297296000)); ((-2)%Z, (-6)%Z, (795325997722517 # 31135104000));
   ((-2)%Z, (-7)%Z, (-6476591199161 # 1945944000)); ((-3)%Z, (-3)%Z, (5896382977423 # 45287424));
   ((-3)%Z, (-4)%Z, (-35999233471051 # 155675520)); ((-3)%Z, (-5)%Z, (775760249154827 # 6227020800));
   ((-3)%Z, (-6)%Z, (-4882688924777 # 129729600)); ((-3)%Z, (-7)%Z, (10196716797013 # 2075673600));
   ((-4)%Z, (-4)%Z, (23315424178373 # 226437120)); ((-4)%Z, (-5)%Z, (-983492927359 # 8845200));
   ((-4)%Z, (-6)%Z, (41910140004779 # 1245404160)); ((-4)%Z, (-7)%Z, (-3423798156193 # 778377600));
   ((-5)%Z, (-5)%Z, (624177436330267 # 20756736000)); ((-5)%Z, (-6)%Z, (-70944310593109 # 3891888000));
   ((-5)%Z, (-7)%Z, (10610581100123 # 4447872000)); ((-6)%Z, (-6)%Z, (172229708657639 # 62270208000));
   ((-6)%Z, (-7)%Z, (-1410106709147 # 1945944000)); ((-7)%Z, (-7)%Z, (986005096387 # 20756736000))]
  (8 # 6435) (1 # 6435)
  [(0%Z, (1 # 8)); ((-1)%Z, (481 # 280)); ((-2)%Z, (-499 # 280)); ((-3)%Z, (481 # 280)); ((-4)%Z, (-1007 # 840)); ((-5)%Z, (463 # 840));
   ((-6)%Z, (-25 # 168)); ((-7)%Z, (1 # 56))]
  [(0%Z, (761 # 280)); ((-1)%Z, (-1479 # 280)); ((-2)%Z, (2441 # 280)); ((-3)%Z, (-8357 # 840)); ((-4)%Z, (6343 # 840));
   ((-5)%Z, (-613 # 168)); ((-6)%Z, (57 # 56)); ((-7)%Z, (-1 # 8))].
(** weno.f90:998-1493 weno15 *)
Definition weno15_table : list stencil := [weno15_0; weno15_1; weno15_2; weno15_3; weno15_4; weno15_5; weno15_6; weno15_7].

(** weno.f90:1554: sigma0, omega0, omega9, fr0 and fr9 of weno17 *)
Definition weno17_0 : stencil := mkStencil
  [
   (0%Z, 0%Z, (109471139332699 # 163459296000)); (0%Z, 1%Z, (-894628364420801 # 100590336000));
   (0%Z, 2%Z, (34709567828765989 # 1307674368000)); (0%Z, 3%Z, (-12083632055537503 # 261534873600));
   (0%Z, 4%Z, (534237095117903 # 10461394944)); (0%Z, 5%Z, (-47841342141981299 # 1307674368000));
   (0%Z, 6%Z, (21644628077515483 # 1307674368000)); (0%Z, 7%Z, (-5644399400246309 # 1307674368000));
   (0%Z, 8%Z, (129739906408601 # 261534873600)); (1%Z, 1%Z, (5602753233305651 # 186810624000));
   (1%Z, 2%Z, (-59111412950734301 # 326918592000)); (1%Z, 3%Z, (207178084258860569 # 653837184000));
   (1%Z, 4%Z, (-46020384090357023 # 130767436800)); (1%Z, 5%Z, (165445178916726479 # 653837184000));
   (1%Z, 6%Z, (-37531036453047161 # 326918592000)); (1%Z, 7%Z, (137189721025309 # 4572288000));
   (1%Z, 8%Z, (-4517524574525093 # 1307674368000)); (2%Z, 2%Z, (4660712172178939 # 16982784000));
   (2%Z, 3%Z, (-45148728224254817 # 46702656000)); (2%Z, 4%Z, (228786920178433 # 212284800));
   (2%Z, 5%Z, (-36294580012168613 # 46702656000)); (2%Z, 6%Z, (33008527082236991 # 93405312000));
   (2%Z, 7%Z, (-30250052825497529 # 326918592000)); (2%Z, 8%Z, (13952443929995611 # 1307674368000));
   (3%Z, 3%Z, (159646773711558347 # 186810624000)); (3%Z, 4%Z, (-7140074733899851 # 3736212480));
   (3%Z, 5%Z, (25802513458691833 # 18681062400)); (3%Z, 6%Z, (-29387187771747941 # 46702656000));
   (3%Z, 7%Z, (107887390486248143 # 653837184000)); (3%Z, 8%Z, (-24911758529750003 # 1307674368000));
   (4%Z, 4%Z, (8001879703767347 # 7472424960)); (4%Z, 5%Z, (-5794119024433483 # 3736212480));
   (4%Z, 6%Z, (150205347326833 # 212284800)); (4%Z, 7%Z, (-24293471434588703 # 130767436800));
   (4%Z, 8%Z, (1123058785015051 # 52306974720)); (5%Z, 5%Z, (105045730109557451 # 186810624000));
   (5%Z, 6%Z, (-23993743892557601 # 46702656000)); (5%Z, 7%Z, (88287149743355417 # 653837184000));
   (5%Z, 8%Z, (-816990037454483 # 52306974720)); (6%Z, 6%Z, (1994952741927931 # 16982784000));
   (6%Z, 7%Z, (-20204125377340061 # 326918592000)); (6%Z, 8%Z, (9355064903078053 # 1307674368000));
   (7%Z, 7%Z, (10637354815456613 # 1307674368000)); (7%Z, 8%Z, (-189555672759617 # 100590336000));
   (8%Z, 8%Z, (17848737251203 # 163459296000))]
  (1 # 24310) (9 # 24310)
  [(0%Z, (7129 # 2520)); (1%Z, (-15551 # 2520)); (2%Z, (29809 # 2520)); (3%Z, (-40751 # 2520)); (4%Z, (38629 # 2520));
   (5%Z, (-4975 # 504)); (6%Z, (2081 # 504)); (7%Z, (-73 # 72)); (8%Z, (1 # 9))]
  [(0%Z, (1 # 9)); (1%Z, (4609 # 2520)); (2%Z, (-5471 # 2520)); (3%Z, (6289 # 2520)); (4%Z, (-5471 # 2520));
   (5%Z, (3349 # 2520)); (6%Z, (-271 # 504)); (7%Z, (65 # 504)); (8%Z, (-1 # 72))].
(** weno.f90:1599: sigma1, omega1, omega10, fr1 and fr10 of weno17 *)
Definition weno17_1 : stencil := mkStencil
  [
   (0%Z, 0%Z, (6603455065054091 # 1307674368000)); (0%Z, 1%Z, (-10036779580858187 # 326918592000));
   (0%Z, 2%Z, (35272568778872279 # 653837184000)); (0%Z, 3%Z, (-7832368115834609 # 130767436800));
   (0%Z, 4%Z, (28101378954880001 # 653837184000)); (0%Z, 5%Z, (-6356537203415423 # 326918592000));
   (0%Z, 6%Z, (23159841631123 # 4572288000)); (0%Z, 7%Z, (-760053376543163 # 1307674368000));
   (0%Z, (-1)%Z, (-147809125548479 # 100590336000)); (1%Z, 1%Z, (800572672346869 # 16982784000));
   (1%Z, 2%Z, (-7795675329471191 # 46702656000)); (1%Z, 3%Z, (39564077889589 # 212284800));
   (1%Z, 4%Z, (-1254519948165511 # 9340531200)); (1%Z, 5%Z, (5694325930465457 # 93405312000));
   (1%Z, 6%Z, (-5205585064855199 # 326918592000)); (1%Z, 7%Z, (2394338101248133 # 1307674368000));
   (1%Z, (-1)%Z, (1152669616433567 # 261534873600)); (2%Z, 2%Z, (27770723927721989 # 186810624000));
   (2%Z, 3%Z, (-6230647138120121 # 18681062400)); (2%Z, 4%Z, (22533757546843859 # 93405312000));
   (2%Z, 5%Z, (-5129104009946051 # 46702656000)); (2%Z, 6%Z, (18799624487562689 # 653837184000));
   (2%Z, 7%Z, (-4331747069079341 # 1307674368000)); (2%Z, (-1)%Z, (-10036258935621221 # 1307674368000));
   (3%Z, 3%Z, (1403304354475421 # 7472424960)); (3%Z, 4%Z, (-5091060727437401 # 18681062400));
   (3%Z, 5%Z, (26403598814209 # 212284800)); (3%Z, 6%Z, (-4266972749341649 # 130767436800));
   (3%Z, 7%Z, (984850182064169 # 261534873600)); (3%Z, (-1)%Z, (2214259153735049 # 261534873600));
   (4%Z, 4%Z, (18518028023237957 # 186810624000)); (4%Z, 5%Z, (-4234862610936119 # 46702656000));
   (4%Z, 6%Z, (3116380997521963 # 130767436800)); (4%Z, 7%Z, (-3601784423075141 # 1307674368000));
   (4%Z, (-1)%Z, (-7906584673048973 # 1307674368000)); (5%Z, 5%Z, (352812369719413 # 16982784000));
   (5%Z, 6%Z, (-3575411646556907 # 326918592000)); (5%Z, 7%Z, (1655072196501883 # 1307674368000));
   (5%Z, (-1)%Z, (3563951929254757 # 1307674368000)); (6%Z, 6%Z, (269247491159069 # 186810624000));
   (6%Z, 7%Z, (-33593572337951 # 100590336000)); (6%Z, (-1)%Z, (-7406462028919 # 10461394944));
   (7%Z, 7%Z, (3165355170121 # 163459296000)); (7%Z, (-1)%Z, (105994418298211 # 1307674368000));
   ((-1)%Z, (-1)%Z, (17848737251203 # 163459296000))]
  (36 # 12155) (144 # 12155)
  [(0%Z, (4609 # 2520)); (1%Z, (-5471 # 2520)); (2%Z, (6289 # 2520)); (3%Z, (-5471 # 2520)); (4%Z, (3349 # 2520));
   (5%Z, (-271 # 504)); (6%Z, (65 # 504)); (7%Z, (-1 # 72)); ((-1)%Z, (1 # 9))]
  [(0%Z, (17 # 72)); (1%Z, (3349 # 2520)); (2%Z, (-2531 # 2520)); (3%Z, (1879 # 2520)); (4%Z, (-1061 # 2520));
   (5%Z, (409 # 2520)); (6%Z, (-19 # 504)); (7%Z, (1 # 252)); ((-1)%Z, (-1 # 72))].
(** weno.f90:1644: sigma2, omega2, omega11, fr2 and fr11 of weno17 *)
Definition weno17_2 : stencil := mkStencil
  [
   (0%Z, 0%Z, (156622544328763 # 16982784000)); (0%Z, 1%Z, (-1544964557143169 # 46702656000));
   (0%Z, 2%Z, (7883820528109 # 212284800)); (0%Z, 3%Z, (-1250454991752101 # 46702656000));
   (0%Z, 4%Z, (1131898542897407 # 93405312000)); (0%Z, 5%Z, (-1029608247917273 # 326918592000));
   (0%Z, 6%Z, (470643665358907 # 1307674368000)); (0%Z, (-1)%Z, (-1918610096603357 # 326918592000));
   (0%Z, (-2)%Z, (1063191201446533 # 1307674368000)); (1%Z, 1%Z, (5599666272693707 # 186810624000));
   (1%Z, 2%Z, (-1267992294203351 # 18681062400)); (1%Z, 3%Z, (4601782036044509 # 93405312000));
   (1%Z, 4%Z, (-209388842757121 # 9340531200)); (1%Z, 5%Z, (3825435713279951 # 653837184000));
   (1%Z, 6%Z, (-877252492928723 # 1307674368000)); (1%Z, (-1)%Z, (1359891017166853 # 130767436800));
   (1%Z, (-2)%Z, (-1859899247394491 # 1307674368000)); (2%Z, 2%Z, (289259235638771 # 7472424960));
   (2%Z, 3%Z, (-1056291616534871 # 18681062400)); (2%Z, 4%Z, (5489435141989 # 212284800));
   (2%Z, 5%Z, (-886173785909759 # 130767436800)); (2%Z, 6%Z, (203891614104599 # 261534873600));
   (2%Z, (-1)%Z, (-1512744281500799 # 130767436800)); (2%Z, (-2)%Z, (409921790776919 # 261534873600));
   (3%Z, 3%Z, (3878296682785739 # 186810624000)); (3%Z, 4%Z, (-890937252684641 # 46702656000));
   (3%Z, 5%Z, (3281427995720729 # 653837184000)); (3%Z, 6%Z, (-757402017640571 # 1307674368000));
   (3%Z, (-1)%Z, (5414972538444239 # 653837184000)); (3%Z, (-2)%Z, (-1457105112643091 # 1307674368000));
   (4%Z, 4%Z, (74730821653819 # 16982784000)); (4%Z, 5%Z, (-759598480120637 # 326918592000));
   (4%Z, 6%Z, (70341062456897 # 261534873600)); (4%Z, (-1)%Z, (-1218782466526649 # 326918592000));
   (4%Z, (-2)%Z, (652452925567483 # 1307674368000)); (5%Z, 5%Z, (402355798141541 # 1307674368000));
   (5%Z, 6%Z, (-1026441378647 # 14370048000)); (5%Z, (-1)%Z, (4411553510173 # 4572288000));
   (5%Z, (-2)%Z, (-168172381487813 # 1307674368000)); (6%Z, 6%Z, (679328101453 # 163459296000));
   (6%Z, (-1)%Z, (-5748413034701 # 52306974720)); (6%Z, (-2)%Z, (19094704104061 # 1307674368000));
   ((-1)%Z, (-1)%Z, (1239990283564133 # 1307674368000)); ((-1)%Z, (-2)%Z, (-3844139848343 # 14370048000));
   ((-2)%Z, (-2)%Z, (3165355170121 # 163459296000))]
  (504 # 12155) (1176 # 12155)
  [(0%Z, (3349 # 2520)); (1%Z, (-2531 # 2520)); (2%Z, (1879 # 2520)); (3%Z, (-1061 # 2520)); (4%Z, (409 # 2520));
   (5%Z, (-19 # 504)); (6%Z, (1 # 252)); ((-1)%Z, (17 # 72)); ((-2)%Z, (-1 # 72))]
  [(0%Z, (191 # 504)); (1%Z, (2509 # 2520)); (2%Z, (-1271 # 2520)); (3%Z, (619 # 2520)); (4%Z, (-221 # 2520)); (5%Z, (7 # 360));
   (6%Z, (-1 # 504)); ((-1)%Z, (-25 # 504)); ((-2)%Z, (1 # 252))].
(** weno.f90:1689: sigma3, omega3, omega12, fr3 and fr12 of weno17 *)
Definition weno17_3 : stencil := mkStencil
  [
   (0%Z, 0%Z, (1553225813426501 # 186810624000)); (0%Z, 1%Z, (-72310955346373 # 3736212480));
   (0%Z, 2%Z, (266698467235063 # 18681062400)); (0%Z, 3%Z, (-305368847812163 # 46702656000));
   (0%Z, 4%Z, (1114386138224129 # 653837184000)); (0%Z, 5%Z, (-253674820236749 # 1307674368000));
   (0%Z, (-1)%Z, (-411721854332951 # 46702656000)); (0%Z, (-2)%Z, (1720297891825367 # 653837184000));
   (0%Z, (-3)%Z, (-17694932119757 # 52306974720)); (1%Z, 1%Z, (85394018909597 # 7472424960));
   (1%Z, 2%Z, (-63811818908581 # 3736212480)); (1%Z, 3%Z, (1679094624733 # 212284800));
   (1%Z, 4%Z, (-272139518377073 # 130767436800)); (1%Z, 5%Z, (2497209723185 # 10461394944));
   (1%Z, (-1)%Z, (2145005788633 # 212284800)); (1%Z, (-2)%Z, (-388442316668753 # 130767436800));
   (1%Z, (-3)%Z, (19690918384021 # 52306974720)); (2%Z, 2%Z, (1206964694318597 # 186810624000));
   (2%Z, 3%Z, (-282622107973367 # 46702656000)); (2%Z, 4%Z, (1051238439516119 # 653837184000));
   (2%Z, 5%Z, (-48633489917473 # 261534873600)); (2%Z, (-1)%Z, (-343655982425891 # 46702656000));
   (2%Z, (-2)%Z, (1397141337414593 # 653837184000)); (2%Z, (-3)%Z, (-350067382006253 # 1307674368000));
   (3%Z, 3%Z, (24324934655989 # 16982784000)); (3%Z, 4%Z, (-251283767228651 # 326918592000));
   (3%Z, 5%Z, (117272649474139 # 1307674368000)); (3%Z, (-1)%Z, (311458280689841 # 93405312000));
   (3%Z, (-2)%Z, (-313421131078079 # 326918592000)); (3%Z, (-3)%Z, (155614950712261 # 1307674368000));
   (4%Z, 4%Z, (136155780967307 # 1307674368000)); (4%Z, 5%Z, (-2466233185151 # 100590336000));
   (4%Z, (-1)%Z, (-281678601090911 # 326918592000)); (4%Z, (-2)%Z, (1123540717459 # 4572288000));
   (4%Z, (-3)%Z, (-39587674152443 # 1307674368000)); (5%Z, 5%Z, (238114846399 # 163459296000));
   (5%Z, (-1)%Z, (127326292586533 # 1307674368000)); (5%Z, (-2)%Z, (-36073774922459 # 1307674368000));
   (5%Z, (-3)%Z, (883416230471 # 261534873600)); ((-1)%Z, (-1)%Z, (40385614392181 # 16982784000));
   ((-1)%Z, (-2)%Z, (-472662830894411 # 326918592000)); ((-1)%Z, (-3)%Z, (247582660569403 # 1307674368000));
   ((-2)%Z, (-2)%Z, (293675114165963 # 1307674368000)); ((-2)%Z, (-3)%Z, (-6056041731167 # 100590336000));
   ((-3)%Z, (-3)%Z, (679328101453 # 163459296000))]
  (2352 # 12155) (3528 # 12155)
  [(0%Z, (2509 # 2520)); (1%Z, (-1271 # 2520)); (2%Z, (619 # 2520)); (3%Z, (-221 # 2520)); (4%Z, (7 # 360)); (5%Z, (-1 # 504));
   ((-1)%Z, (191 # 504)); ((-2)%Z, (-25 # 504)); ((-3)%Z, (1 # 252))]
  [(0%Z, (275 # 504)); (1%Z, (1879 # 2520)); (2%Z, (-641 # 2520)); (3%Z, (199 # 2520)); (4%Z, (-41 # 2520)); (5%Z, (1 # 630));
   ((-1)%Z, (-61 # 504)); ((-2)%Z, (11 # 504)); ((-3)%Z, (-1 # 504))].
(** weno.f90:1734: sigma4, omega4, omega13, fr4 and fr13 of weno17 *)
Definition weno17_4 : stencil := mkStencil
  [
   (0%Z, 0%Z, (52297392889139 # 7472424960)); (0%Z, 1%Z, (-207139067201783 # 18681062400));
   (0%Z, 2%Z, (1143576251161 # 212284800)); (0%Z, 3%Z, (-192310346872991 # 130767436800));
   (0%Z, 4%Z, (45272942020727 # 261534873600)); (0%Z, (-1)%Z, (-207139067201783 # 18681062400));
   (0%Z, (-2)%Z, (1143576251161 # 212284800)); (0%Z, (-3)%Z, (-192310346872991 # 130767436800));
   (0%Z, (-4)%Z, (45272942020727 # 261534873600)); (1%Z, 1%Z, (836484368637131 # 186810624000));
   (1%Z, 2%Z, (-207059158040897 # 46702656000)); (1%Z, 3%Z, (161084839253509 # 130767436800));
   (1%Z, 4%Z, (-192700060973723 # 1307674368000)); (1%Z, (-1)%Z, (805195803373277 # 93405312000));
   (1%Z, (-2)%Z, (-38450763316993 # 9340531200)); (1%Z, (-3)%Z, (723357784442063 # 653837184000));
   (1%Z, (-4)%Z, (-167888314942259 # 1307674368000)); (2%Z, 2%Z, (19010310966523 # 16982784000));
   (2%Z, 3%Z, (-207359252612669 # 326918592000)); (2%Z, 4%Z, (20216075320673 # 261534873600));
   (2%Z, (-1)%Z, (-38450763316993 # 9340531200)); (2%Z, (-2)%Z, (180786151740479 # 93405312000));
   (2%Z, (-3)%Z, (-167690675241113 # 326918592000)); (2%Z, (-4)%Z, (76858903972891 # 1307674368000));
   (3%Z, 3%Z, (119979314906981 # 1307674368000)); (3%Z, 4%Z, (-2297804363777 # 100590336000));
   (3%Z, (-1)%Z, (723357784442063 # 653837184000)); (3%Z, (-2)%Z, (-167690675241113 # 326918592000));
   (3%Z, (-3)%Z, (613753663261 # 4572288000)); (3%Z, (-4)%Z, (-3976300410337 # 261534873600));
   (4%Z, 4%Z, (238114846399 # 163459296000)); (4%Z, (-1)%Z, (-167888314942259 # 1307674368000));
   (4%Z, (-2)%Z, (76858903972891 # 1307674368000)); (4%Z, (-3)%Z, (-3976300410337 # 261534873600));
   (4%Z, (-4)%Z, (2227506474493 # 1307674368000)); ((-1)%Z, (-1)%Z, (836484368637131 # 186810624000));
   ((-1)%Z, (-2)%Z, (-207059158040897 # 46702656000)); ((-1)%Z, (-3)%Z, (161084839253509 # 130767436800));
   ((-1)%Z, (-4)%Z, (-192700060973723 # 1307674368000)); ((-2)%Z, (-2)%Z, (19010310966523 # 16982784000));
   ((-2)%Z, (-3)%Z, (-207359252612669 # 326918592000)); ((-2)%Z, (-4)%Z, (20216075320673 # 261534873600));
   ((-3)%Z, (-3)%Z, (119979314906981 # 1307674368000)); ((-3)%Z, (-4)%Z, (-2297804363777 # 100590336000));
   ((-4)%Z, (-4)%Z, (238114846399 # 163459296000))]
  (882 # 2431) (882 # 2431)
  [(0%Z, (1879 # 2520)); (1%Z, (-641 # 2520)); (2%Z, (199 # 2520)); (3%Z, (-41 # 2520)); (4%Z, (1 # 630)); ((-1)%Z, (275 # 504));
   ((-2)%Z, (-61 # 504)); ((-3)%Z, (11 # 504)); ((-4)%Z, (-1 # 504))]
  [(0%Z, (1879 # 2520)); (1%Z, (275 # 504)); (2%Z, (-61 # 504)); (3%Z, (11 # 504)); (4%Z, (-1 # 504)); ((-1)%Z, (-641 # 2520));
   ((-2)%Z, (199 # 2520)); ((-3)%Z, (-41 # 2520)); ((-4)%Z, (1 # 630))].
(** weno.f90:1779: sigma5, omega5, omega14, fr5 and fr14 of weno17 *)
Definition weno17_5 : stencil := mkStencil
  [
   (0%Z, 0%Z, (1553225813426501 # 186810624000)); (0%Z, 1%Z, (-411721854332951 # 46702656000));
   (0%Z, 2%Z, (1720297891825367 # 653837184000)); (0%Z, 3%Z, (-17694932119757 # 52306974720));
   (0%Z, (-1)%Z, (-72310955346373 # 3736212480)); (0%Z, (-2)%Z, (266698467235063 # 18681062400));
   (0%Z, (-3)%Z, (-305368847812163 # 46702656000)); (0%Z, (-4)%Z, (1114386138224129 # 653837184000));
   (0%Z, (-5)%Z, (-253674820236749 # 1307674368000)); (1%Z, 1%Z, (40385614392181 # 16982784000));
   (1%Z, 2%Z, (-472662830894411 # 326918592000)); (1%Z, 3%Z, (247582660569403 # 1307674368000));
   (1%Z, (-1)%Z, (2145005788633 # 212284800)); (1%Z, (-2)%Z, (-343655982425891 # 46702656000));
   (1%Z, (-3)%Z, (311458280689841 # 93405312000)); (1%Z, (-4)%Z, (-281678601090911 # 326918592000));
   (1%Z, (-5)%Z, (127326292586533 # 1307674368000)); (2%Z, 2%Z, (293675114165963 # 1307674368000));
   (2%Z, 3%Z, (-6056041731167 # 100590336000)); (2%Z, (-1)%Z, (-388442316668753 # 130767436800));
   (2%Z, (-2)%Z, (1397141337414593 # 653837184000)); (2%Z, (-3)%Z, (-313421131078079 # 326918592000));
   (2%Z, (-4)%Z, (1123540717459 # 4572288000)); (2%Z, (-5)%Z, (-36073774922459 # 1307674368000));
   (3%Z, 3%Z, (679328101453 # 163459296000)); (3%Z, (-1)%Z, (19690918384021 # 52306974720));
   (3%Z, (-2)%Z, (-350067382006253 # 1307674368000)); (3%Z, (-3)%Z, (155614950712261 # 1307674368000));
   (3%Z, (-4)%Z, (-39587674152443 # 1307674368000)); (3%Z, (-5)%Z, (883416230471 # 261534873600));
   ((-1)%Z, (-1)%Z, (85394018909597 # 7472424960)); ((-1)%Z, (-2)%Z, (-63811818908581 # 3736212480));
   ((-1)%Z, (-3)%Z, (1679094624733 # 212284800)); ((-1)%Z, (-4)%Z, (-272139518377073 # 130767436800));
   ((-1)%Z, (-5)%Z, (2497209723185 # 10461394944)); ((-2)%Z, (-2)%Z, (1206964694318597 # 186810624000));
   ((-2)%Z, (-3)%Z, (-282622107973367 # 46702656000)); ((-2)%Z, (-4)%Z, (1051238439516119 # 653837184000));
   ((-2)%Z, (-5)%Z, (-48633489917473 # 261534873600)); ((-3)%Z, (-3)%Z, (24324934655989 # 16982784000));
   ((-3)%Z, (-4)%Z, (-251283767228651 # 326918592000)); ((-3)%Z, (-5)%Z, (117272649474139 # 1307674368000));
   ((-4)%Z, (-4)%Z, (136155780967307 # 1307674368000)); ((-4)%Z, (-5)%Z, (-2466233185151 # 100590336000));
   ((-5)%Z, (-5)%Z, (238114846399 # 163459296000))]
  (3528 # 12155) (2352 # 12155)
  [(0%Z, (275 # 504)); (1%Z, (-61 # 504)); (2%Z, (11 # 504)); (3%Z, (-1 # 504)); ((-1)%Z, (1879 # 2520)); ((-2)%Z, (-641 # 2520));
   ((-3)%Z, (199 # 2520)); ((-4)%Z, (-41 # 2520)); ((-5)%Z, (1 # 630))]
  [(0%Z, (2509 # 2520)); (1%Z, (191 # 504)); (2%Z, (-25 # 504)); (3%Z, (1 # 252)); ((-1)%Z, (-1271 # 2520)); ((-2)%Z, (619 # 2520));
   ((-3)%Z, (-221 # 2520)); ((-4)%Z, (7 # 360)); ((-5)%Z, (-1 # 504))].
(** weno.f90:1824: sigma6, omega6, omega15, fr6 and fr15 of weno17 *)
Definition weno17_6 : stencil := mkStencil
  [
   (0%Z, 0%Z, (156622544328763 # 16982784000)); (0%Z, 1%Z, (-1918610096603357 # 326918592000));
   (0%Z, 2%Z, (1063191201446533 # 1307674368000)); (0%Z, (-1)%Z, (-1544964557143169 # 46702656000));
   (0%Z, (-2)%Z, (7883820528109 # 212284800)); (0%Z, (-3)%Z, (-1250454991752101 # 46702656000));
   (0%Z, (-4)%Z, (1131898542897407 # 93405312000)); (0%Z, (-5)%Z, (-1029608247917273 # 326918592000));
   (0%Z, (-6)%Z, (470643665358907 # 1307674368000)); (1%Z, 1%Z, (1239990283564133 # 1307674368000));
   (1%Z, 2%Z, (-3844139848343 # 14370048000)); (1%Z, (-1)%Z, (1359891017166853 # 130767436800));
   (1%Z, (-2)%Z, (-1512744281500799 # 130767436800)); (1%Z, (-3)%Z, (5414972538444239 # 653837184000));
   (1%Z, (-4)%Z, (-1218782466526649 # 326918592000)); (1%Z, (-5)%Z, (4411553510173 # 4572288000));
   (1%Z, (-6)%Z, (-5748413034701 # 52306974720)); (2%Z, 2%Z, (3165355170121 # 163459296000));
   (2%Z, (-1)%Z, (-1859899247394491 # 1307674368000)); (2%Z, (-2)%Z, (409921790776919 # 261534873600));
   (2%Z, (-3)%Z, (-1457105112643091 # 1307674368000)); (2%Z, (-4)%Z, (652452925567483 # 1307674368000));
   (2%Z, (-5)%Z, (-168172381487813 # 1307674368000)); (2%Z, (-6)%Z, (19094704104061 # 1307674368000));
   ((-1)%Z, (-1)%Z, (5599666272693707 # 186810624000)); ((-1)%Z, (-2)%Z, (-1267992294203351 # 18681062400));
   ((-1)%Z, (-3)%Z, (4601782036044509 # 93405312000)); ((-1)%Z, (-4)%Z, (-209388842757121 # 9340531200));
   ((-1)%Z, (-5)%Z, (3825435713279951 # 653837184000)); ((-1)%Z, (-6)%Z, (-877252492928723 # 1307674368000));
   ((-2)%Z, (-2)%Z, (289259235638771 # 7472424960)); ((-2)%Z, (-3)%Z, (-1056291616534871 # 18681062400));
   ((-2)%Z, (-4)%Z, (5489435141989 # 212284800)); ((-2)%Z, (-5)%Z, (-886173785909759 # 130767436800));
   ((-2)%Z, (-6)%Z, (203891614104599 # 261534873600)); ((-3)%Z, (-3)%Z, (3878296682785739 # 186810624000));
   ((-3)%Z, (-4)%Z, (-890937252684641 # 46702656000)); ((-3)%Z, (-5)%Z, (3281427995720729 # 653837184000));
   ((-3)%Z, (-6)%Z, (-757402017640571 # 1307674368000)); ((-4)%Z, (-4)%Z, (74730821653819 # 16982784000));
   ((-4)%Z, (-5)%Z, (-759598480120637 # 326918592000)); ((-4)%Z, (-6)%Z, (70341062456897 # 261534873600));
   ((-5)%Z, (-5)%Z, (402355798141541 # 1307674368000)); ((-5)%Z, (-6)%Z, (-1026441378647 # 14370048000));
   ((-6)%Z, (-6)%Z, (679328101453 # 163459296000))]
  (1176 # 12155) (504 # 12155)
  [(0%Z, (191 # 504)); (1%Z, (-25 # 504)); (2%Z, (1 # 252)); ((-1)%Z, (2509 # 2520)); ((-2)%Z, (-1271 # 2520)); ((-3)%Z, (619 # 2520));
   ((-4)%Z, (-221 # 2520)); ((-5)%Z, (7 # 360)); ((-6)%Z, (-1 # 504))]
  [(0%Z, (3349 # 2520)); (1%Z, (17 # 72)); (2%Z, (-1 # 72)); ((-1)%Z, (-2531 # 2520)); ((-2)%Z, (1879 # 2520));
   ((-3)%Z, (-1061 # 2520)); ((-4)%Z, (409 # 2520)); ((-5)%Z, (-19 # 504)); ((-6)%Z, (1 # 252))].
(** weno.f90:1869: sigma7, omega7, omega16, fr7 and fr16 of weno17 *)
Definition weno17_7 : stencil := mkStencil
  [
   (0%Z, 0%Z, (6603455065054091 # 1307674368000)); (0%Z, 1%Z, (-147809125548479 # 100590336000));
   (0%Z, (-1)%Z, (-10036779580858187 # 326918592000)); (0%Z, (-2)%Z, (35272568778872279 # 653837184000));
   (0%Z, (-3)%Z, (-7832368115834609 # 130767436800)); (0%Z, (-4)%Z, (28101378954880001 # 653837184000));
   (0%Z, (-5)%Z, (-6356537203415423 # 326918592000)); (0%Z, (-6)%Z, (23159841631123 # 4572288000));
   (0%Z, (-7)%Z, (-760053376543163 # 1307674368000)); (1%Z, 1%Z, (17848737251203 # 163459296000));
   (1%Z, (-1)%Z, (1152669616433567 # 261534873600)); (1%Z, (-2)%Z, (-10036258935621221 # 1307674368000));
   (1%Z, (-3)%Z, (2214259153735049 # 261534873600)); (1%Z, (-4)%Z, (-7906584673048973 # 1307674368000));
   (1%Z, (-5)%Z, (3563951929254757 # 1307674368000)); (1%Z, (-6)%Z, (-7406462028919 # 10461394944));
   (1%Z, (-7)%Z, (105994418298211 # 1307674368000)); ((-1)%Z, (-1)%Z, (800572672346869 # 16982784000));
   ((-1)%Z, (-2)%Z, (-7795675329471191 # 46702656000)); ((-1)%Z, (-3)%Z, (39564077889589 # 212284800));
   ((-1)%Z, (-4)%Z, (-1254519948165511 # 9340531200)); ((-1)%Z, (-5)%Z, (5694325930465457 # 93405312000));
   ((-1)%Z, (-6)%Z, (-5205585064855199 # 326918592000)); ((-1)%Z, (-7)%Z, (2394338101248133 # 1307674368000));
   ((-2)%Z, (-2)%Z, (27770723927721989 # 186810624000)); ((-2)%Z, (-3)%Z, (-6230647138120121 # 18681062400));
   ((-2)%Z, (-4)%Z, (22533757546843859 # 93405312000)); ((-2)%Z, (-5)%Z, (-5129104009946051 # 46702656000));
   ((-2)%Z, (-6)%Z, (18799624487562689 # 653837184000)); ((-2)%Z, (-7)%Z, (-4331747069079341 # 1307674368000));
   ((-3)%Z, (-3)%Z, (1403304354475421 # 7472424960)); ((-3)%Z, (-4)%Z, (-5091060727437401 # 18681062400));
   ((-3)%Z, (-5)%Z, (26403598814209 # 212284800)); ((-3)%Z, (-6)%Z, (-4266972749341649 # 130767436800));
   ((-3)%Z, (-7)%Z, (984850182064169 # 261534873600)); ((-4)%Z, (-4)%Z, (18518028023237957 # 186810624000));
   ((-4)%Z, (-5)%Z, (-4234862610936119 # 46702656000)); ((-4)%Z, (-6)%Z, (3116380997521963 # 130767436800));
   ((-4)%Z, (-7)%Z, (-3601784423075141 # 1307674368000)); ((-5)%Z, (-5)%Z, (352812369719413 # 16982784000));
   ((-5)%Z, (-6)%Z, (-3575411646556907 # 326918592000)); ((-5)%Z, (-7)%Z, (1655072196501883 # 1307674368000));
   ((-6)%Z, (-6)%Z, (269247491159069 # 186810624000)); ((-6)%Z, (-7)%Z, (-33593572337951 # 100590336000));
   ((-7)%Z, (-7)%Z, (3165355170121 # 163459296000))]
  (144 # 12155) (36 # 12155)
  [(0%Z, (17 # 72)); (1%Z, (-1 # 72)); ((-1)%Z, (3349 # 2520)); ((-2)%Z, (-2531 # 2520)); ((-3)%Z, (1879 # 2520));
   ((-4)%Z, (-1061 # 2520)); ((-5)%Z, (409 # 2520)); ((-6)%Z, (-19 # 504)); ((-7)%Z, (1 # 252))]
  [(0%Z, (4609 # 2520)); (1%Z, (1 # 9)); ((-1)%Z, (-5471 # 2520)); ((-2)%Z, (6289 # 2520)); ((-3)%Z, (-5471 # 2520));
   ((-4)%Z, (3349 # 2520)); ((-5)%Z, (-271 # 504)); ((-6)%Z, (65 # 504)); ((-7)%Z, (-1 # 72))].
(** weno.f90:1914: sigma8, omega8, omega17, fr8 and fr17 of weno17 *)
Definition weno17_8 : stencil := mkStencil
  [
   (0%Z, 0%Z, (109471139332699 # 163459296000)); (0%Z, (-1)%Z, (-894628364420801 # 100590336000));
   (0%Z, (-2)%Z, (34709567828765989 # 1307674368000)); (0%Z, (-3)%Z, (-12083632055537503 # 261534873600));
   (0%Z, (-4)%Z, (534237095117903 # 10461394944)); (0%Z, (-5)%Z, (-47841342141981299 # 1307674368000));
   (0%Z, (-6)%Z, (21644628077515483 # 1307674368000)); (0%Z, (-7)%Z, (-5644399400246309 # 1307674368000));
   (0%Z, (-8)%Z, (129739906408601 # 261534873600)); ((-1)%Z, (-1)%Z, (5602753233305651 # 186810624000));
   ((-1)%Z, (-2)%Z, (-59111412950734301 # 326918592000)); ((-1)%Z, (-3)%Z, (207178084258860569 # 653837184000));
   ((-1)%Z, (-4)%Z, (-46020384090357023 # 130767436800)); ((-1)%Z, (-5)%Z, (165445178916726479 # 653837184000));
   ((-1)%Z, (-6)%Z, (-37531036453047161 # 326918592000)); ((-1)%Z, (-7)%Z, (137189721025309 # 4572288000));
   ((-1)%Z, (-8)%Z, (-4517524574525093 # 1307674368000)); ((-2)%Z, (-2)%Z, (4660712172178939 # 16982784000));
   ((-2)%Z, (-3)%Z, (-45148728224254817 # 46702656000)); ((-2)%Z, (-4)%Z, (228786920178433 # 212284800));
   ((-2)%Z, (-5)%Z, (-36294580012168613 # 46702656000)); ((-2)%Z, (-6)%Z, (33008527082236991 # 93405312000));
   ((-2)%Z, (-7)%Z, (-30250052825497529 # 326918592000)); ((-2)%Z, (-8)%Z, (13952443929995611 # 1307674368000));
   ((-3)%Z, (-3)%Z, (159646773711558347 # 186810624000)); ((-3)%Z, (-4)%Z, (-7140074733899851 # 3736212480));
   ((-3)%Z, (-5)%Z, (25802513458691833 # 18681062400)); ((-3)%Z, (-6)%Z, (-29387187771747941 # 46702656000));
   ((-3)%Z, (-7)%Z, (107887390486248143 # 653837184000)); ((-3)%Z, (-8)%Z, (-24911758529750003 # 1307674368000));
   ((-4)%Z, (-4)%Z, (8001879703767347 # 7472424960)); ((-4)%Z, (-5)%Z, (-5794119024433483 # 3736212480));
   ((-4)%Z, (-6)%Z, (150205347326833 # 212284800)); ((-4)%Z, (-7)%Z, (-24293471434588703 # 130767436800));
   ((-4)%Z, (-8)%Z, (1123058785015051 # 52306974720)); ((-5)%Z, (-5)%Z, (105045730109557451 # 186810624000));
   ((-5)%Z, (-6)%Z, (-23993743892557601 # 46702656000)); ((-5)%Z, (-7)%Z, (88287149743355417 # 653837184000));
   ((-5)%Z, (-8)%Z, (-816990037454483 # 52306974720)); ((-6)%Z, (-6)%Z, (1994952741927931 # 16982784000));
   ((-6)%Z, (-7)%Z, (-20204125377340061 # 326918592000)); ((-6)%Z, (-8)%Z, (9355064903078053 # 1307674368000));
   ((-7)%Z, (-7)%Z, (10637354815456613 # 1307674368000)); ((-7)%Z, (-8)%Z, (-189555672759617 # 100590336000));
   ((-8)%Z, (-8)%Z, (17848737251203 # 163459296000))]
  (9 # 24310) (1 # 24310)
  [(0%Z, (1 # 9)); ((-1)%Z, (4609 # 2520)); ((-2)%Z, (-5471 # 2520)); ((-3)%Z, (6289 # 2520)); ((-4)%Z, (-5471 # 2520));
   ((-5)%Z, (3349 # 2520)); ((-6)%Z, (-271 # 504)); ((-7)%Z, (65 # 504)); ((-8)%Z, (-1 # 72))]
  [(0%Z, (7129 # 2520)); ((-1)%Z, (-15551 # 2520)); ((-2)%Z, (29809 # 2520)); ((-3)%Z, (-40751 # 2520)); ((-4)%Z, (38629 # 2520));
   ((-5)%Z, (-4975 # 504)); ((-6)%Z, (2081 # 504)); ((-7)%Z, (-73 # 72)); ((-8)%Z, (1 # 9))].
(** weno.f90:1495-2151 weno17 *)
Definition weno17_table : list stencil := [weno17_0; weno17_1; weno17_2; weno17_3; weno17_4; weno17_5; weno17_6; weno17_7; weno17_8].
