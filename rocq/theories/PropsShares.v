(** Property C98: a secret shared among many parties.

    Reading guide.  SpecShares.v: Shamir's sharing with Feldman's check, as programs over the crate's public API.  [share cs x]: the polynomial
    with the coefficients cs at x; the first coefficient is the secret.  [recover xs ys]: the secret from the parties xs and their shares ys, with
    [Scalar::invert] for the quotients; [factors xs]: the weights it uses.  [combined fs bs]: the sum of the strings bs times fs.
    [check_share bs x y]: y B against the strings bs of the coefficients.  [poly]: the polynomial on integers.  [canonical s]: below l.
    Random choice is not modelled: [C98_hiding] counts the coefficients behind given shares. *)
Require Import ZArith List Bool.
From Verif Require Import Base SpecParams FieldBackend Backends ScalarModel ScalarMain ApiExpr SpecExponent SpecShares ProtocolMain SharesMain.
Import ListNotations.
Open Scope Z_scope.

Theorem C98_share : forall cs x, Forall canonical cs -> is_scalar x ->
  exists y, share cs x = Ok y /\ canonical y /\ sval y = poly (map sval cs) (sval x) mod ell.
Proof. exact share_value. Qed.
Print Assumptions C98_share.

(** As many different parties as there are coefficients, or more, find the secret. *)
Theorem C98_recover : forall c cs xs ys, canonical c -> Forall canonical cs -> Forall canonical xs -> NoDup xs -> (length (c :: cs) <= length xs)%nat ->
  Forall2 (fun x y => share (c :: cs) x = Ok y) xs ys -> recover xs ys = Ok c.
Proof. exact recover_ok. Qed.
Print Assumptions C98_recover.

(** That this holds for repeated parties is false: [Scalar::invert] of 0 is 0, so nothing fails, and the result is another scalar. *)
Theorem C98_recover_refuted : exists c cs xs ys, canonical c /\ Forall canonical cs /\ Forall canonical xs /\ ~ In scalar_zero xs /\
  (length (c :: cs) <= length xs)%nat /\ Forall2 (fun x y => share (c :: cs) x = Ok y) xs ys /\ recover xs ys <> Ok c.
Proof. exact twice_refuted. Qed.
Print Assumptions C98_recover_refuted.
Theorem C98_twice : forall c cs x y, canonical c -> Forall canonical cs -> canonical x -> share (c :: cs) x = Ok y ->
  recover [x; x] [y; y] = Ok scalar_zero.
Proof. exact twice_zero. Qed.
Print Assumptions C98_twice.

(** One party fewer learns nothing: any shares go with any secret, by exactly one choice of the other coefficients. *)
Theorem C98_hiding : forall s xs ys, canonical s -> Forall canonical xs -> Forall canonical ys -> NoDup xs -> ~ In scalar_zero xs -> length ys = length xs ->
  exists cs, (Forall canonical cs /\ length cs = length xs /\ Forall2 (fun x y => share (s :: cs) x = Ok y) xs ys) /\
    forall cs', Forall canonical cs' -> length cs' = length xs -> Forall2 (fun x y => share (s :: cs') x = Ok y) xs ys -> cs' = cs.
Proof. exact shares_hide. Qed.
Print Assumptions C98_hiding.

(** That this holds with the party 0 is false: its share is the secret. *)
Theorem C98_hiding_refuted : exists s xs ys, canonical s /\ Forall canonical xs /\ Forall canonical ys /\ NoDup xs /\ length ys = length xs /\
  ~ exists cs, Forall canonical cs /\ length cs = length xs /\ Forall2 (fun x y => share (s :: cs) x = Ok y) xs ys.
Proof. exact hide_refuted. Qed.
Print Assumptions C98_hiding_refuted.
Theorem C98_party_zero : forall c cs, canonical c -> Forall canonical cs -> share (c :: cs) scalar_zero = Ok c.
Proof. exact share_zero. Qed.
Print Assumptions C98_party_zero.

(** The check against the public keys of the coefficients accepts exactly the share. *)
Theorem C98_check : forall B, shipped B -> forall cs x y bs, Forall canonical cs -> is_scalar x -> canonical y ->
  Forall2 (fun c b => api_run B (public_key c) = Ok (Some b)) cs bs ->
  (api_run B (check_share bs x y) = Ok (Some true) <-> share cs x = Ok y).
Proof. exact check_public. Qed.
Print Assumptions C98_check.
(** The same for any published strings. *)
Theorem C98_check_exact : forall B, shipped B -> forall ns x y, is_scalar x -> is_scalar y ->
  api_run B (check_share (map string_of ns) x y) = Ok (Some (sval y mod ell =? poly ns (sval x) mod ell)).
Proof. exact check_value. Qed.
Print Assumptions C98_check_exact.

(** What the parties make together of a string, each multiplying by the own share only, is the string times the secret. *)
Theorem C98_combined : forall B, shipped B -> forall p c cs xs ys bs, canonical c -> Forall canonical cs -> Forall canonical xs -> NoDup xs ->
  (length (c :: cs) <= length xs)%nat -> Forall2 (fun x y => share (c :: cs) x = Ok y) xs ys ->
  Forall2 (fun y b => api_run B (shared_secret (string_of p) y) = Ok (Some b)) ys bs ->
  exists fs, factors xs = Ok fs /\ api_run B (ADcCompress (combined fs bs)) = api_run B (shared_secret (string_of p) c).
Proof. exact combined_value. Qed.
Print Assumptions C98_combined.

(** A case: the secret 7 with the second coefficient 3, and the parties 1 and 2. *)
Example C98_case : forall B, shipped B ->
  (canonical (num 7) /\ Forall canonical [num 3] /\ Forall canonical [num 1; num 2] /\ NoDup [num 1; num 2] /\ ~ In scalar_zero [num 1; num 2]) /\
  (share [num 7; num 3] (num 1) = Ok (num 10) /\ share [num 7; num 3] (num 2) = Ok (num 13) /\ recover [num 1; num 2] [num 10; num 13] = Ok (num 7)) /\
  (api_run B (check_share [string_of 7; string_of 3] (num 2) (num 13)) = Ok (Some true) /\
   api_run B (check_share [string_of 7; string_of 3] (num 2) (num 14)) = Ok (Some false)).
Proof. exact shares_case. Qed.
Print Assumptions C98_case.
