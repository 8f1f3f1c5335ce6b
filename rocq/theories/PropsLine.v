(** Property C101: the Montgomery ladder is multiplication of integers up to sign.

    Reading guide.  [mp_mul B b s]: the crate's [&MontgomeryPoint * &Scalar] over backend B; [line_order e l]: e = 1 and l = ell (Curve448) or e = -1 and
    l = ell_twist (its twist); [generates e l g]: the multiples of g are all points, and repeat exactly after 4 l; [line_string e l g n]: the string of the
    coordinate of n g; [line_stands b e l g n]: b, reduced modulo p, is that coordinate; [line_same l m n]: m = n or m = -n modulo 4 l, or both are
    multiples of 2 l (SpecLine.v); [chain], [even_product]: as in C94 (SpecChain.v).  The ladder multiplies by the next even number, as in C37. *)
Require Import ZArith List Bool.
From Verif Require Import Base SpecParams SpecField SpecEncoding SpecMontgomery SpecTwist FieldBackend Backends ScalarModel MontgomeryModel SpecChain SpecLine LineMain.
Import ListNotations.
Open Scope Z_scope.

(** Both curves have a generator. *)
Theorem C101_generator : forall e l, line_order e l -> exists g, generates e l g.
Proof. exact generators. Qed.
Print Assumptions C101_generator.

(** Every string stands for an integer on one of them. *)
Theorem C101_every_string : forall g g', generates (1)%F ell g -> generates (- (1))%F ell_twist g' -> forall b,
  (exists n, 0 <= n < 4 * ell /\ line_stands b (1)%F ell g n) \/ (exists n, 0 <= n < 4 * ell_twist /\ line_stands b (- (1))%F ell_twist g' n).
Proof. exact every_string. Qed.
Print Assumptions C101_every_string.

(** When integers have the same string, on one curve and on both. *)
Theorem C101_string : forall e l g, line_order e l -> generates e l g -> forall m n, line_string e l g m = line_string e l g n <-> line_same l m n.
Proof. exact string_iff. Qed.
Print Assumptions C101_string.
Theorem C101_cross : forall g g', generates (1)%F ell g -> generates (- (1))%F ell_twist g' -> forall m n,
  line_string (1)%F ell g m = line_string (- (1))%F ell_twist g' n <-> (2 * ell | m) /\ (2 * ell_twist | n).
Proof. exact string_cross. Qed.
Print Assumptions C101_cross.

(** The ladder. *)
Theorem C101_mul : forall e l g, line_order e l -> generates e l g -> forall B, shipped B -> forall b n s, bytes 56 b -> is_scalar s ->
  line_stands b e l g n -> mp_mul B b s = Ok (line_string e l g (n * (sval s + sval s mod 2))).
Proof. exact line_mul. Qed.
Print Assumptions C101_mul.

(** When any two multiplications agree. *)
Theorem C101_equal : forall e l g, line_order e l -> generates e l g -> forall B, shipped B -> forall b b' n n' s s', bytes 56 b -> bytes 56 b' ->
  is_scalar s -> is_scalar s' -> line_stands b e l g n -> line_stands b' e l g n' ->
  (mp_mul B b s = mp_mul B b' s' <-> line_same l (n * (sval s + sval s mod 2)) (n' * (sval s' + sval s' mod 2))).
Proof. exact line_mul_equal. Qed.
Print Assumptions C101_equal.

(** Several multiplications one after the other. *)
Theorem C101_chain : forall e l g, line_order e l -> generates e l g -> forall B, shipped B -> forall r b n s, bytes 56 b -> is_scalar s -> Forall is_scalar r ->
  line_stands b e l g n -> chain B b (s :: r) = Ok (line_string e l g (n * even_product (s :: r))).
Proof. exact line_chain. Qed.
Print Assumptions C101_chain.

(** Which strings some scalar makes of b: the even multiples. *)
Theorem C101_reach : forall e l g, line_order e l -> generates e l g -> forall B, shipped B -> forall b n n', bytes 56 b -> line_stands b e l g n ->
  ((exists s, is_scalar s /\ mp_mul B b s = Ok (line_string e l g n')) <-> exists m, line_same l (n * (2 * m)) n').
Proof. exact line_reach. Qed.
Print Assumptions C101_reach.

(** When two scalars multiply every string alike: any scalars, scalars below l, and decoded X448 secrets. *)
Theorem C101_function : forall B, shipped B -> forall s t, is_scalar s -> is_scalar t ->
  ((forall b, bytes 56 b -> mp_mul B b s = mp_mul B b t) <->
   line_same ell (sval s + sval s mod 2) (sval t + sval t mod 2) /\ line_same ell_twist (sval s + sval s mod 2) (sval t + sval t mod 2)).
Proof. exact same_function. Qed.
Print Assumptions C101_function.
Theorem C101_reduced : forall B, shipped B -> forall s t, is_scalar s -> is_scalar t -> sval s < ell -> sval t < ell ->
  ((forall b, bytes 56 b -> mp_mul B b s = mp_mul B b t) <-> (sval s + 1) / 2 = (sval t + 1) / 2).
Proof. exact same_reduced. Qed.
Print Assumptions C101_reduced.
Theorem C101_x448 : forall B, shipped B -> forall k k', bytes 56 k -> bytes 56 k' ->
  ((forall b, bytes 56 b -> mp_mul B b (scalar_from_bytes (clamp448 k)) = mp_mul B b (scalar_from_bytes (clamp448 k'))) <-> clamp448 k = clamp448 k').
Proof. exact same_clamped. Qed.
Print Assumptions C101_x448.

(** 5 is on Curve448 and 6 on the twist, neither low; 1 and 2 multiply alike, 2 and 3 do not. *)
Example C101_case :
  (exists g n, generates (1)%F ell g /\ line_stands (le_bytes 56 5) (1)%F ell g n /\ ~ (2 * ell | n)) /\
  (exists g n, generates (- (1))%F ell_twist g /\ line_stands (le_bytes 56 6) (- (1))%F ell_twist g n /\ ~ (2 * ell_twist | n)) /\
  (forall n, 0 <= n < 10 -> is_scalar (digits 32 14 n) /\ sval (digits 32 14 n) = n) /\
  forall B, shipped B -> (forall b, bytes 56 b -> mp_mul B b (digits 32 14 1) = mp_mul B b (digits 32 14 2)) /\
    exists b, bytes 56 b /\ mp_mul B b (digits 32 14 2) <> mp_mul B b (digits 32 14 3).
Proof. exact line_case. Qed.
Print Assumptions C101_case.
