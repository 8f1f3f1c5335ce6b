(** A program that uses each part of the API and feeds its results back. *)
Require Import ZArith List Bool Lia.
From Verif Require Import Base BaseProofs SpecField SpecCurve SpecEncoding FieldTheory FieldBackend Backends BackendLaws ScalarModel ScalarProofs ScalarProofs2 EdwardsProofs TwistedModel EdwardsModel
  MontgomeryModel DecafModel DecafRun EdwardsMain Ladder ApiExpr SpecApi ApiRun.
Import ListNotations.
Open Scope Z_scope.
Local Opaque lloop ed_encode le_bytes padd pmul scalar_from_bytes scalar_mul scalar_bits ed_decode.

(** k * G to the u-line, the u-coordinate read back as a scalar, that multiple of the Decaf generator plus the torqued and
    untorqued images, its encoding tested by the Edwards decoder, and a branch on the outcome. *)
Definition sample (k : scalar) : api (TData (DBytes 56)) :=
  ABind (DBytes 56) _ (AEdToMontgomery (AEdMul AEdGenerator k)) (fun u =>
  ABind DScalar _ (AScMul k (scalar_from_bytes u)) (fun t =>
  ABind (DBytes 56) _ (ADcCompress (ADcAdd (ADcMul ADcGenerator t) ADcIdentity)) (fun c =>
  ABind DBool _ (AIsSome _ (AEdDecompress (c ++ [0]))) (fun ok : bool =>
  ABind DBool _ (ATwEq (ATwTorque (ATwist AEdGenerator)) (ATwOfXt (AXtAddTw (AXtOfTw ATwGenerator) ATwIdentity))) (fun same : bool =>
  if ok then AMpMul c t else if same then ARet (DBytes 56) u else APmToAffine (APmOf c)))))).

Lemma app_bytes : forall b, bytes 56 b -> bytes 57 (b ++ [0]).
Proof. intros b [Lb Rb]. split; [rewrite app_length, Lb; reflexivity|]. apply Forall_app. split; [exact Rb|]. constructor; [lia|constructor]. Qed.
Lemma sample_ok : forall k, is_scalar k -> api_ok (sample k).
Proof.
  intros k Hk. cbn [sample api_ok dok]. split; [split; [exact I|exact Hk]|]. intros u Hu. cbn [api_ok].
  split; [split; [exact Hk|exact (proj1 (from_bytes_scalar u Hu))]|]. intros t Ht. cbn [api_ok]. split; [split; [split; [exact I|exact Ht]|exact I]|]. intros c Hc. cbn [api_ok].
  split; [exact (app_bytes c Hc)|]. intros ok _. cbn [api_ok]. split; [repeat split|]. intros same _. destruct ok; [split; assumption|]. destruct same; assumption.
Qed.
Lemma sample_returns : forall B, shipped B -> forall k, is_scalar k -> exists b, bytes 56 b /\ api_run B (sample k) = Ok (Some b).
Proof.
  intros B S k Hk. destruct (api_data B S _ _ (sample_ok k Hk)) as [E V]. assert (K : exists b, api_val (sample k) = Some b).
  { cbn [sample api_val ob]. assert (Hu : bytes 56 (le_bytes 56 (fval (snd (pmul ed_a ed_d (sval k) G) * snd (pmul ed_a ed_d (sval k) G) * finv (fst (pmul ed_a ed_d (sval k) G) * fst (pmul ed_a ed_d (sval k) G)))%F))) by apply le_bytes_bytes.
    destruct (scalar_mul_ok k _ Hk (proj1 (from_bytes_scalar _ Hu))) as (t & -> & _). cbn [of_res ob]. destruct (ed_decode _); [eexists; reflexivity|].
    destruct (TwistedProofs.peqb _ _); eexists; reflexivity. }
  destruct K as [b K]. exists b. split; [exact (V b K)|]. rewrite E, K. reflexivity.
Qed.
