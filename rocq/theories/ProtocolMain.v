(** What the protocols compute. *)
Require Import ZArith Znumtheory List Bool Lia.
From Verif Require Import Base BaseProofs SpecParams SpecField SpecCurve SpecEncoding SpecDecaf SpecCount Primes FieldBackend Backends
  ScalarModel ScalarProofs ScalarMain DecafMain EdwardsProofs EdwardsMain EdwardsExpr DecafGroup SignatureMain SignatureLog BatchMain ApiExpr SpecApi ApiRun ApiMeaning SpecExponent ExponentMain SpecProtocols.
Import ListNotations.
Open Scope Z_scope.
Local Opaque ell string_of digits.

Lemma one_string : forall (Q : scalar -> Prop) z0, 0 <= z0 < ell -> (forall z, is_scalar z -> (Q z <-> sval z mod ell = z0)) ->
  exactly 1 (fun b => bytes 57 b /\ exists z, scalar_from_canonical_bytes b = Ok (Some z) /\ Q z).
Proof.
  intros Q z0 R0 K. exists [le_bytes 57 z0].
  split; [constructor; [intros []|constructor]|]. split; [reflexivity|]. intro b. split.
  - intros [<-|[]]. split; [apply le_bytes_bytes|]. destruct (canonical_exists (le_bytes 57 z0) (le_bytes_bytes _ _)) as (z & E & Sz & V); rewrite le_val_bytes57 in * by exact R0; [lia|].
    exists z. split; [exact E|]. apply K; [exact Sz|]. rewrite V. apply Z.mod_small. exact R0.
  - intros (Hb & z & E & A). left. destruct (Z.lt_ge_cases (le_val b) ell) as [Lt|Ge]; [|rewrite (canonical_bytes_reject b Hb Ge) in E; discriminate E].
    destruct (canonical_exists b Hb Lt) as (z' & E' & Sz & V). rewrite E' in E. apply ok_inj in E. injection E as ->. apply (K z Sz) in A. rewrite V in A.
    rewrite Z.mod_small in A by (rewrite <- V; pose proof (scalar_range z Sz); lia). rewrite <- A. exact (bytes_le_bytes 57 b Hb).
Qed.
(** c + z d = n has one solution modulo l. *)
Lemma one_solution : forall d c n, d mod ell <> 0 -> exists z0, 0 <= z0 < ell /\ forall z, (c + d * z) mod ell = n mod ell <-> z mod ell = z0.
Proof.
  intros d c n N. pose proof ell_pos as EP. pose proof (Z.mod_pos_bound d ell EP) as Hd.
  destruct (solve_mod (d mod ell) (c - n) ltac:(lia)) as (z0 & R & K). exists z0. split; [exact R|]. intro z. rewrite <- K, cong.
  rewrite <- Z.mod_divide by lia.
  replace ((c - n + z * (d mod ell)) mod ell) with ((c + d * z - n) mod ell); [tauto|].
  destruct (mod_k d) as [k ->]. apply (modeq _ _ (- (z * k))). ring.
Qed.
Lemma some_inj : forall A (x y : A), Ok (Some x) = Ok (Some y) <-> x = y.
Proof. intros A x y. split; [|intros ->; reflexivity]. intro E. apply ok_inj in E. injection E as E. exact E. Qed.

Section Protocols.
Variable B : backend.
Hypothesis Sh : shipped B.
Notation run e := (api_run B e).

Theorem commit_value : forall h m r, is_scalar m -> is_scalar r -> run (commit (string_of h) m r) = Ok (Some (string_of (sval m + h * sval r))).
Proof.
  intros h m r Hm Hr. refine (eq_trans (encoded B Sh (EAdd (ETimes EBase m) (ETimes (EReceived h) r)) (conj (conj I Hm) (conj I Hr))) _).
  cbn [exponent]. change (eval 32 m) with (sval m). change (eval 32 r) with (sval r). rewrite Z.mul_1_l. reflexivity.
Qed.
Theorem commit_hides : forall h m b, h mod ell <> 0 -> is_scalar m -> bytes 56 b -> decaf_ok b ->
  exactly 1 (fun rb => bytes 57 rb /\ exists r, scalar_from_canonical_bytes rb = Ok (Some r) /\ run (commit (string_of h) m r) = Ok (Some b)).
Proof.
  intros h m b N Hm Hb D. apply (string_all b Hb) in D. destruct D as (n & Hn & ->). destruct (one_solution h (sval m) n N) as (z0 & R0 & K).
  apply (one_string _ z0 R0). intros r Hr. rewrite (commit_value h m r Hm Hr), some_inj, string_inj. apply K.
Qed.
Theorem commit_binds : forall h m r m' r', is_scalar m -> is_scalar r -> is_scalar m' -> is_scalar r' -> sval m mod ell <> sval m' mod ell ->
  run (commit (string_of h) m r) = run (commit (string_of h) m' r') ->
  forall x, string_of x = string_of h <-> (x * (sval r - sval r')) mod ell = (sval m' - sval m) mod ell.
Proof.
  intros h m r m' r' Hm Hr Hm' Hr' N E x. pose proof ell_pos as EP. rewrite !commit_value, some_inj, string_inj in E by assumption. rewrite string_inj.
  rewrite cong in E. destruct E as [k Hk].
  assert (Hh : (h * (sval r - sval r')) mod ell = (sval m' - sval m) mod ell) by (apply (modeq _ _ k); lia).
  assert (N' : (sval r - sval r') mod ell <> 0).
  { intro X. rewrite Z.mul_mod, X, Z.mul_0_r, Z.mod_0_l in Hh by lia. apply N. symmetry. apply cong. apply Z.mod_divide; [lia|]. symmetry. exact Hh. }
  destruct (one_solution (sval r - sval r') 0 (sval m' - sval m) N') as (z0 & _ & K).
  rewrite <- Hh. rewrite <- (Z.mul_comm (sval r - sval r') x), <- (Z.mul_comm (sval r - sval r') h). rewrite <- Z.mul_comm in Hh.
  pose proof (proj1 (K h) Hh) as Kh. specialize (K x). rewrite Z.add_0_l in K. rewrite Hh, K, Kh. tauto.
Qed.
Theorem commit_adds : forall h m m' r r', canonical m -> canonical m' -> canonical r -> canonical r' ->
  run (commit_sum (string_of h) m m' r r') = run (add_strings (string_of (sval m + h * sval r)) (string_of (sval m' + h * sval r'))).
Proof.
  intros h m m' r r' [Hm Lm] [Hm' Lm'] [Hr Lr] [Hr' Lr']. destruct (scalar_add_mod m m' Hm Hm' ltac:(lia) ltac:(lia)) as (x & Ex & Hx & Vx). destruct (scalar_add_mod r r' Hr Hr' ltac:(lia) ltac:(lia)) as (y & Ey & Hy & Vy).
  refine (eq_trans _ (eq_sym (encoded B Sh (EAdd (EReceived _) (EReceived _)) (conj I I)))). unfold commit_sum. cbn [api_run]. rewrite Ex. cbn [osome obind bind]. rewrite Ey. cbn [osome obind bind].
  refine (eq_trans (commit_value h x y Hx Hy) _). apply some_inj, string_inj. cbn [exponent]. rewrite Vx, Vy.
  destruct (mod_k (sval m + sval m')) as [k ->]. destruct (mod_k (sval r + sval r')) as [j ->]. apply (modeq _ _ (k + h * j)). ring.
Qed.
(** A second generator that is the identity hides nothing. *)
Theorem commit_zero : exists H, bytes 56 H /\ decaf_ok H /\ forall m r, is_scalar m -> is_scalar r -> run (commit H m r) = Ok (Some (string_of (sval m))).
Proof.
  exists (string_of 0). split; [apply string_bytes|]. split; [apply (string_all _ (string_bytes 0)); exists 0; pose proof ell_pos; split; [lia|reflexivity]|].
  intros m r Hm Hr. rewrite commit_value by assumption. rewrite Z.mul_0_l, Z.add_0_r. reflexivity.
Qed.

Lemma blind_steps : forall x s k, is_scalar s -> is_scalar k -> exists i, scalar_invert s = Ok i /\ is_scalar i /\ run (blind_eval (string_of x) s k) = Ok (Some (string_of (x * sval s * sval k * sval i))) /\
  (sval s mod ell <> 0 -> (sval s * sval i) mod ell = 1) /\ (sval s mod ell = 0 -> sval i = 0).
Proof.
  intros x s k Hs Hk. destruct (scalar_invert_ok s Hs) as (i & Ei & Hi & _ & K). exists i. split; [exact Ei|]. split; [exact Hi|]. split; [|exact K].
  change (run (blind_eval (string_of x) s k)) with (obind (run (shared_secret (string_of x) s)) (fun v => obind (run (shared_secret v k)) (fun y => obind (osome (scalar_invert s)) (fun i => run (shared_secret y i))))).
  rewrite (shared_string B Sh x s Hs). cbn [obind bind]. rewrite (shared_string B Sh _ k Hk). cbn [obind bind]. rewrite Ei. cbn [osome obind bind]. exact (shared_string B Sh _ i Hi).
Qed.
Theorem blind_value : forall x s k, is_scalar s -> is_scalar k -> sval s mod ell <> 0 -> run (blind_eval (string_of x) s k) = run (shared_secret (string_of x) k).
Proof.
  intros x s k Hs Hk N. rewrite (shared_string B Sh x k Hk). destruct (blind_steps x s k Hs Hk) as (i & _ & Hi & -> & K & _). apply some_inj, string_inj. specialize (K N).
  destruct (mod_k (sval s * sval i)) as [j Hj]. rewrite K in Hj. apply (modeq _ _ (- (x * sval k * j))). replace (x * sval s * sval k * sval i) with (x * sval k * (sval s * sval i)) by ring.
  replace (sval s * sval i) with (1 - j * ell) by lia. ring.
Qed.
Theorem blind_zero : forall x s k, is_scalar s -> is_scalar k -> sval s mod ell = 0 -> run (blind_eval (string_of x) s k) = Ok (Some (repeat 0 56)).
Proof. intros x s k Hs Hk N. destruct (blind_steps x s k Hs Hk) as (i & _ & Hi & -> & _ & K). rewrite (K N), Z.mul_0_r, string_zero. reflexivity. Qed.
Theorem blind_hides : forall x b, x mod ell <> 0 -> bytes 56 b -> decaf_ok b ->
  exactly 1 (fun sb => bytes 57 sb /\ exists s, scalar_from_canonical_bytes sb = Ok (Some s) /\ run (shared_secret (string_of x) s) = Ok (Some b)).
Proof.
  intros x b N Hb D. apply (string_all b Hb) in D. destruct D as (n & Hn & ->). destruct (one_solution x 0 n N) as (z0 & R0 & K).
  apply (one_string _ z0 R0). intros r Hr. rewrite (shared_string B Sh x r Hr), some_inj, string_inj. apply K.
Qed.

Theorem seal_value : forall n m r a, is_scalar r -> is_scalar a -> run (seal_unseal (string_of n) (string_of m) r a) = Ok (Some (string_of (m + sval r * (n - sval a)))).
Proof.
  intros n m r a Hr Ha.
  change (run (seal_unseal (string_of n) (string_of m) r a)) with (obind (run (public_key r)) (fun c1 => obind (run (seal (string_of n) (string_of m) r)) (fun c2 => run (unseal c1 c2 a)))).
  rewrite (public_string B Sh r Hr). cbn [obind bind].
  assert (E : run (seal (string_of n) (string_of m) r) = Ok (Some (string_of (m + n * sval r)))) by exact (encoded B Sh (EAdd (EReceived m) (ETimes (EReceived n) r)) (conj I (conj I Hr))).
  rewrite E. cbn [obind bind]. refine (eq_trans (encoded B Sh (ESub (EReceived _) (ETimes (EReceived _) a)) (conj I (conj I Ha))) _). cbn [exponent]. change (eval 32 a) with (sval a).
  apply some_inj. apply (f_equal string_of). ring.
Qed.
Theorem seal_opens : forall n m r a, is_scalar r -> is_scalar a ->
  (run (seal_unseal (string_of n) (string_of m) r a) = Ok (Some (string_of m)) <-> sval r mod ell = 0 \/ n mod ell = sval a mod ell).
Proof.
  intros n m r a Hr Ha. pose proof ell_pos as EP. rewrite seal_value, some_inj, string_inj, !cong by assumption. replace (m + sval r * (n - sval a) - m) with (sval r * (n - sval a)) by ring. rewrite Z.mod_divide by lia. split.
  - exact (prime_mult ell prime_ell _ _).
  - intros [X|X]; [apply Z.divide_mul_l|apply Z.divide_mul_r]; exact X.
Qed.

Theorem both_value : forall g a b r t c s, is_scalar c -> is_scalar s ->
  run (check_both (string_of g) (string_of a) (string_of b) (string_of r) (string_of t) c s) =
  Ok (Some ((sval s mod ell =? (r + a * sval c) mod ell) && ((g * sval s) mod ell =? (t + b * sval c) mod ell))).
Proof.
  intros g a b r t c s Hc Hs.
  change (run (check_both (string_of g) (string_of a) (string_of b) (string_of r) (string_of t) c s)) with
    (obind (run (check (string_of a) (string_of r) c s)) (fun x => obind (run (check_to (string_of g) (string_of b) (string_of t) c s)) (fun y => Ok (Some (x && y))))).
  rewrite (check_exact B Sh a r c s Hc Hs). cbn [obind bind].
  assert (E : run (check_to (string_of g) (string_of b) (string_of t) c s) = Ok (Some ((g * sval s) mod ell =? (t + b * sval c) mod ell)))
    by exact (compared B Sh (ETimes (EReceived g) s) (EAdd (EReceived t) (ETimes (EReceived b) c)) (conj I Hs) (conj I (conj I Hc))).
  rewrite E. reflexivity.
Qed.
Theorem both_complete : forall g a r c s, is_scalar c -> is_scalar s -> sval s mod ell = (r + a * sval c) mod ell ->
  run (check_both (string_of g) (string_of a) (string_of (g * a)) (string_of r) (string_of (g * r)) c s) = Ok (Some true).
Proof.
  intros g a r c s Hc Hs E. pose proof ell_pos as EP. rewrite both_value, E, Z.eqb_refl by assumption. cbn [andb]. apply some_inj, Z.eqb_eq.
  rewrite Z.mul_mod, E, <- Z.mul_mod by lia. apply (f_equal (fun z => z mod ell)). ring.
Qed.
Theorem both_sound : forall g a b r t, b mod ell <> (g * a) mod ell -> exists c0, 0 <= c0 < ell /\ forall c, is_scalar c ->
  ((exists s, is_scalar s /\ run (check_both (string_of g) (string_of a) (string_of b) (string_of r) (string_of t) c s) = Ok (Some true)) <-> sval c mod ell = c0).
Proof.
  intros g a b r t N. pose proof ell_pos as EP. assert (N' : (b - g * a) mod ell <> 0) by (intro X; apply N, cong, Z.mod_divide; [lia|exact X]).
  destruct (one_solution (b - g * a) t (g * r) N') as (c0 & R0 & K). exists c0. split; [exact R0|]. intros c Hc. rewrite <- K. split.
  - intros (s & Hs & E). rewrite both_value, some_inj, andb_true_iff, !Z.eqb_eq, !cong in E by assumption. destruct E as [[j Hj] [k Hk]]. apply (modeq _ _ (g * j - k)).
    replace (sval s) with (j * ell + (r + a * sval c)) in Hk by lia. lia.
  - intro E. destruct (small_scalar ((r + a * sval c) mod ell) (Z.mod_pos_bound _ _ EP)) as [[Hs _] V]. exists (digits 32 14 ((r + a * sval c) mod ell)). split; [exact Hs|].
    rewrite both_value, V, Z.mod_mod, Z.eqb_refl by (lia || assumption). cbn [andb]. apply some_inj, Z.eqb_eq. destruct (mod_k (r + a * sval c)) as [j ->]. apply cong in E. destruct E as [k Hk]. apply (modeq _ _ (g * j - k)). lia.
Qed.
End Protocols.

Definition num (k : Z) : scalar := digits 32 14 k.
Lemma num_ok : forall k, 0 <= k < ell -> canonical (num k) /\ is_scalar (num k) /\ sval (num k) = k /\ sval (num k) mod ell = k.
Proof. intros k Hk. destruct (small_scalar k Hk) as [C V]. split; [exact C|]. split; [exact (proj1 C)|]. split; [exact V|]. unfold num. rewrite V. apply Z.mod_small. exact Hk. Qed.
Lemma protocol_cases : forall B, shipped B ->
  (7 mod ell <> 0 /\ api_run B (commit (string_of 7) (num 5) (num 1)) = Ok (Some (string_of 12)) /\ api_run B (commit (string_of 7) (num 12) (num 0)) = Ok (Some (string_of 12)) /\ sval (num 5) mod ell <> sval (num 12) mod ell) /\
  (sval (num 5) mod ell <> 0 /\ api_run B (blind_eval (string_of 9) (num 5) (num 4)) = Ok (Some (string_of 36))) /\
  (api_run B (seal_unseal (string_of 3) (string_of 11) (num 2) (num 3)) = Ok (Some (string_of 11)) /\ api_run B (seal_unseal (string_of 3) (string_of 11) (num 2) (num 4)) = Ok (Some (string_of 9))) /\
  (7 mod ell <> (2 * 3) mod ell /\ api_run B (check_both (string_of 2) (string_of 3) (string_of 6) (string_of 5) (string_of 10) (num 4) (num 17)) = Ok (Some true) /\
   api_run B (check_both (string_of 2) (string_of 3) (string_of 7) (string_of 5) (string_of 10) (num 4) (num 17)) = Ok (Some false)).
Proof.
  intros B Sh. assert (L : 100 < ell) by (exact (eq_refl Lt)).
  destruct (num_ok 0 ltac:(lia)) as (_ & H0 & V0 & M0). destruct (num_ok 1 ltac:(lia)) as (_ & H1 & V1 & M1). destruct (num_ok 2 ltac:(lia)) as (_ & H2 & V2 & M2). destruct (num_ok 3 ltac:(lia)) as (_ & H3 & V3 & M3).
  destruct (num_ok 4 ltac:(lia)) as (_ & H4 & V4 & M4). destruct (num_ok 5 ltac:(lia)) as (_ & H5 & V5 & M5). destruct (num_ok 12 ltac:(lia)) as (_ & H12 & V12 & M12). destruct (num_ok 17 ltac:(lia)) as (_ & H17 & V17 & M17).
  split; [|split; [|split]].
  - rewrite !commit_value, M5, M12, V5, V12, V1, V0 by assumption. rewrite Z.mod_small by lia. repeat split; discriminate.
  - rewrite M5. split; [discriminate|]. rewrite blind_value by (assumption || (rewrite M5; discriminate)). rewrite (shared_string B Sh 9 (num 4) H4), V4. reflexivity.
  - rewrite !seal_value, V2, V3, V4 by assumption. split; reflexivity.
  - rewrite !both_value, V17, V4 by assumption. rewrite !Z.mod_small by lia. split; [discriminate|]. split; reflexivity.
Qed.
