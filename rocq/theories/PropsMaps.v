(** Property C82: which points the maps between the three curves send to the same point, and which points they reach.

    Reading guide. [shipped B]: B is one of the two backends. [ed_valid], [tw_valid], [ed_affine], [tw_affine]: the valid representations of points and the affine points
    they stand for, PointSpec.v. [on_curve], [pmul], [pzero]: SpecCurve.v. [dc_equals]: equality of Decaf points, decaf.rs:49-51. [ell]: the prime order. *)
Require Import ZArith List Bool.
From Verif Require Import Base SpecParams SpecField SpecCurve FieldBackend FieldModel Backends TwistedModel EdwardsModel DecafModel PointSpec EdwardsCases MapTheory MapMain.
Import ListNotations.
Open Scope F_scope.

(** ** To the twisted curve: edwards/extended.rs:244-270 *)

(** Four points, always different, are sent to the same one. *)
Theorem C82_to_twisted_fibre : forall B, shipped B -> forall P Q, ed_valid B P -> ed_valid B Q ->
  exists T U b, ed_to_twisted B P = Ok T /\ ed_to_twisted B Q = Ok U /\ tw_ct_eq B T U = Ok b /\
    (b = true <-> let (x, y) := ed_affine B P in In (ed_affine B Q) [(x, y); (- x, - y); (y, - x); (- y, x)]).
Proof. exact to_twisted_fibre. Qed.
Print Assumptions C82_to_twisted_fibre.
Theorem C82_four_different : forall x y, on_curve ed_a ed_d (x, y) -> NoDup [(x, y); (- x, - y); (y, - x); (- y, x)].
Proof. exact four_different. Qed.
Print Assumptions C82_four_different.

(** The points of the prime order subgroup are reached, and no others. *)
Theorem C82_to_twisted_image : forall B, shipped B -> forall T, tw_valid B T ->
  ((exists P R, ed_valid B P /\ ed_to_twisted B P = Ok R /\ tw_ct_eq B R T = Ok true) <-> pmul tw_a tw_d ell (tw_affine B T) = pzero).
Proof. exact to_twisted_image. Qed.
Print Assumptions C82_to_twisted_image.
Example C82_to_twisted_case : forall B, shipped B -> tw_valid B (tw_generator B) /\ pmul tw_a tw_d ell (tw_affine B (tw_generator B)) = pzero /\
  exists T, tw_valid B T /\ pmul tw_a tw_d ell (tw_affine B T) <> pzero.
Proof. exact reached_twisted. Qed.

(** readme.md, scalar.rs:93, twedwards/extended.rs:131 call it a 2-isogeny: then at most two points would be sent to the same one.  Here are three. *)
Theorem C82_two_isogeny_refuted : forall B, shipped B -> exists P Q R T U V, ed_valid B P /\ ed_valid B Q /\ ed_valid B R /\
  ed_ct_eq B P Q = Ok false /\ ed_ct_eq B P R = Ok false /\ ed_ct_eq B Q R = Ok false /\
  ed_to_twisted B P = Ok T /\ ed_to_twisted B Q = Ok U /\ ed_to_twisted B R = Ok V /\ tw_ct_eq B T U = Ok true /\ tw_ct_eq B T V = Ok true.
Proof. exact two_isogeny_refuted. Qed.
Print Assumptions C82_two_isogeny_refuted.

(** ** Back: twedwards/extended.rs:131-134 *)

(** Two valid points are sent to the same one exactly if they are equal as Decaf points. *)
Theorem C82_to_untwisted_fibre : forall B, shipped B -> forall T U, tw_valid B T -> tw_valid B U ->
  exists P Q b, tw_to_untwisted B T = Ok P /\ tw_to_untwisted B U = Ok Q /\ ed_ct_eq B P Q = Ok b /\ dc_equals B T U = Ok b /\
    (b = true <-> let (x, y) := tw_affine B T in In (tw_affine B U) [(x, y); (- x, - y)]).
Proof. exact to_untwisted_fibre. Qed.
Print Assumptions C82_to_untwisted_fibre.
(** The torsion-free points are reached, and no others. *)
Theorem C82_to_untwisted_image : forall B, shipped B -> forall P, ed_valid B P ->
  ((exists T R, tw_valid B T /\ tw_to_untwisted B T = Ok R /\ ed_ct_eq B R P = Ok true) <-> ed_is_torsion_free B P = Ok true).
Proof. exact to_untwisted_image. Qed.
Print Assumptions C82_to_untwisted_image.
Example C82_to_untwisted_case : forall B, shipped B -> ed_valid B (ed_generator B) /\ ed_is_torsion_free B (ed_generator B) = Ok true /\
  ed_valid B (t4_point B) /\ ed_is_torsion_free B (t4_point B) = Ok false.
Proof. exact reached_untwisted. Qed.

(** ** To Curve448: edwards/extended.rs:109-120 *)

(** Again four points: those with the same coordinates up to signs, or the four points on the axes. *)
Theorem C82_to_montgomery_fibre : forall B, shipped B -> forall P Q, ed_valid B P -> ed_valid B Q ->
  exists a b, ed_to_montgomery B P = Ok a /\ ed_to_montgomery B Q = Ok b /\
    let (x, y) := ed_affine B P in
    (x * y <> 0 -> (a = b <-> In (ed_affine B Q) [(x, y); (- x, y); (x, - y); (- x, - y)])) /\
    (x * y = 0 -> (a = b <-> In (ed_affine B Q) [(0, 1); (0, - (1)); (1, 0); (- (1), 0)])).
Proof. exact to_montgomery_fibre. Qed.
Print Assumptions C82_to_montgomery_fibre.
Theorem C82_signs_different : forall x y, on_curve ed_a ed_d (x, y) -> x * y <> 0 -> NoDup [(x, y); (- x, y); (x, - y); (- x, - y)].
Proof. exact different_points. Qed.
Print Assumptions C82_signs_different.
(** Reached are the canonical encodings of the squares u for which v^2 = u^3 + 156326 u^2 + u has a solution. *)
Theorem C82_to_montgomery_image : forall B, shipped B -> forall b, bytes 56 b ->
  ((exists P, ed_valid B P /\ ed_to_montgomery B P = Ok b) <->
   (le_val b < p)%Z /\ let u := of_Z (le_val b) in is_square u /\ is_square (u * u * u + of_Z 156326 * (u * u) + u)).
Proof. exact to_montgomery_image. Qed.
Print Assumptions C82_to_montgomery_image.
Example C82_to_montgomery_case : bytes 56 (le_bytes 56 5) /\ (forall B, shipped B -> exists P, ed_valid B P /\ ed_to_montgomery B P = Ok (le_bytes 56 5)) /\
  bytes 56 (le_bytes 56 (p - 1)) /\ (forall B, shipped B -> ~ exists P, ed_valid B P /\ ed_to_montgomery B P = Ok (le_bytes 56 (p - 1))).
Proof. exact reached_u. Qed.
