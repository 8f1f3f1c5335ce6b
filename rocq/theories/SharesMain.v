(** What shares of a secret give. *)
Require Import ZArith Znumtheory List Bool Lia.
From Verif Require Import Base BaseProofs SpecParams SpecDecaf NumTheory Primes FieldBackend Backends ScalarModel ScalarProofs ScalarProofs2 ScalarMain EdwardsProofs EdwardsMain EdwardsExpr DecafMain SignatureMain SignatureLog
  ApiExpr SpecApi ApiRun ApiMeaning SpecExponent ExponentMain SpecProtocols ProtocolMain SpecShares PolyTheory.
Import ListNotations.
Open Scope Z_scope.
Open Scope res_scope.
Local Opaque ell string_of digits scalar_mul scalar_add scalar_sub scalar_invert.
Local Notation "a ≡ b" := (a mod ell = b mod ell) (at level 70).

Lemma canon_range : forall s, canonical s -> 0 <= sval s < ell. Proof. intros s [H L]. pose proof (scalar_range s H). lia. Qed.
Lemma mul_c : forall a b, is_scalar a -> is_scalar b -> exists r, scalar_mul a b = Ok r /\ canonical r /\ sval r = (sval a * sval b) mod ell.
Proof. intros a b Ha Hb. destruct (scalar_mul_ok a b Ha Hb) as (r & E & H & V). exists r. split; [exact E|]. split; [|exact V]. split; [exact H|]. rewrite V. apply Z.mod_pos_bound. pose proof ellp. lia. Qed.
Lemma add_c : forall a b, canonical a -> canonical b -> exists r, scalar_add a b = Ok r /\ canonical r /\ sval r = (sval a + sval b) mod ell.
Proof. intros a b [Ha La] [Hb Lb]. destruct (scalar_add_mod a b Ha Hb La Lb) as (r & E & H & V). exists r. split; [exact E|]. split; [|exact V]. split; [exact H|]. rewrite V. apply Z.mod_pos_bound. pose proof ellp. lia. Qed.
Lemma sub_c : forall a b, canonical a -> canonical b -> exists r, scalar_sub a b = Ok r /\ canonical r /\ sval r = (sval a - sval b) mod ell.
Proof. intros a b [Ha La] [Hb Lb]. destruct (scalar_sub_mod a b Ha Hb La Lb) as (r & E & H & V). exists r. split; [exact E|]. split; [|exact V]. split; [exact H|]. rewrite V. apply Z.mod_pos_bound. pose proof ellp. lia. Qed.
Lemma inv_c : forall a, is_scalar a -> exists r, scalar_invert a = Ok r /\ canonical r /\ sval r = inv (sval a) mod ell.
Proof. intros a Ha. destruct (scalar_invert_pow a Ha) as (r & E & H & V). exists r. split; [exact E|]. split; [|exact V]. split; [exact H|]. rewrite V. apply Z.mod_pos_bound. pose proof ellp. lia. Qed.
Lemma one_c : canonical scalar_one /\ sval scalar_one = 1. Proof. destruct scalar_one_ok as [H V]. split; [|exact V]. split; [exact H|]. rewrite V. pose proof ellp. lia. Qed.
Lemma zero_c : canonical scalar_zero /\ sval scalar_zero = 0. Proof. destruct scalar_zero_ok as [H V]. split; [|exact V]. split; [exact H|]. rewrite V. pose proof ellp. lia. Qed.
Lemma canon_eq : forall a b, canonical a -> canonical b -> sval a ≡ sval b -> a = b.
Proof. intros a b Ha Hb E. pose proof (canon_range a Ha). pose proof (canon_range b Hb). rewrite !Z.mod_small in E by assumption. exact (scalar_inj a b (proj1 Ha) (proj1 Hb) E). Qed.
Lemma modm : forall a b, a mod ell * b ≡ a * b. Proof. intros. pose proof ellp. apply Z.mul_mod_idemp_l. lia. Qed.
Lemma modm' : forall a b, a * (b mod ell) ≡ a * b. Proof. intros. pose proof ellp. apply Z.mul_mod_idemp_r. lia. Qed.
Lemma moda : forall a b, a mod ell + b ≡ a + b. Proof. intros. pose proof ellp. apply Z.add_mod_idemp_l. lia. Qed.
Lemma moda' : forall a b, a + b mod ell ≡ a + b. Proof. intros. pose proof ellp. apply Z.add_mod_idemp_r. lia. Qed.

Theorem share_value : forall cs x, Forall canonical cs -> is_scalar x -> exists y, share cs x = Ok y /\ canonical y /\ sval y = poly (map sval cs) (sval x) mod ell.
Proof.
  intros cs x F Hx. induction F as [|c cs Hc F (r & E & Hr & V)]; [destruct zero_c as [C V]; exists scalar_zero; rewrite V; repeat split; try apply C; reflexivity|].
  cbn [share map poly]. rewrite E. cbn [bind]. destruct (mul_c x r Hx (proj1 Hr)) as (t & -> & Ht & Vt). cbn [bind]. destruct (add_c c t Hc Ht) as (y & -> & Hy & Vy). exists y. split; [reflexivity|]. split; [exact Hy|].
  rewrite Vy, Vt, V, moda'. rewrite <- moda', modm', moda'. reflexivity.
Qed.
Lemma top_value : forall o, Forall canonical o -> exists r, top o = Ok r /\ canonical r /\ sval r ≡ tops (map sval o) 0.
Proof.
  intros o F. induction F as [|a o Ha F (r & E & Hr & V)]; [destruct one_c as [C V]; exists scalar_one; rewrite V; repeat split; apply C|].
  cbn [top map tops]. rewrite E. cbn [bind]. destruct (mul_c a r (proj1 Ha) (proj1 Hr)) as (t & -> & Ht & Vt). exists t. split; [reflexivity|]. split; [exact Ht|]. rewrite Vt, Z.mod_mod, Z.sub_0_r by (pose proof ellp; lia). rewrite <- modm', V, modm'. reflexivity.
Qed.
Lemma bottom_value : forall o x, Forall canonical o -> canonical x -> exists r, bottom o x = Ok r /\ canonical r /\ sval r ≡ tops (map sval o) (sval x).
Proof.
  intros o x F Hx. induction F as [|a o Ha F (r & E & Hr & V)]; [destruct one_c as [C V]; exists scalar_one; rewrite V; repeat split; apply C|].
  cbn [bottom map tops]. destruct (sub_c a x Ha Hx) as (d & -> & Hd & Vd). cbn [bind]. rewrite E. cbn [bind]. destruct (mul_c d r (proj1 Hd) (proj1 Hr)) as (t & -> & Ht & Vt). exists t. split; [reflexivity|]. split; [exact Ht|].
  rewrite Vt, Z.mod_mod, Vd by (pose proof ellp; lia). rewrite modm, <- modm', V, modm'. reflexivity.
Qed.
Lemma inv_cong : forall a b, a ≡ b -> inv a ≡ inv b.
Proof. intros a b E. unfold inv. pose proof ellp. apply NumTheory.mod_pow_cong; [lia|lia|exact E]. Qed.
Lemma factor_value : forall o x, Forall canonical o -> canonical x -> exists f, factor o x = Ok f /\ canonical f /\ sval f ≡ inv (tops (map sval o) (sval x)) * tops (map sval o) 0.
Proof.
  intros o x F Hx. unfold factor. destruct (top_value o F) as (n & -> & Hn & Vn). destruct (bottom_value o x F Hx) as (d & -> & Hd & Vd). cbn [bind]. destruct (inv_c d (proj1 Hd)) as (i & -> & Hi & Vi). cbn [bind].
  destruct (mul_c n i (proj1 Hn) (proj1 Hi)) as (f & -> & Hf & Vf). exists f. split; [reflexivity|]. split; [exact Hf|]. rewrite Vf, Z.mod_mod, Vi, modm' by (pose proof ellp; lia). rewrite Z.mul_comm, <- modm, (inv_cong _ _ Vd), modm, <- modm', Vn, modm'. reflexivity.
Qed.

(** The factors as numbers. *)
Fixpoint fvals (before xs : list Z) : list Z := match xs with [] => [] | x :: xs' => inv (tops (before ++ xs') x) * tops (before ++ xs') 0 :: fvals (before ++ [x]) xs' end.
Fixpoint dotz (fs ys : list Z) : Z := match fs, ys with f :: fs', y :: ys' => f * y + dotz fs' ys' | _, _ => 0 end.
Lemma lagrange_dot : forall xs before g, lagrange before xs g 0 = dotz (fvals before xs) (map g xs).
Proof. induction xs as [|x xs IH]; intros before g; [reflexivity|]. cbn [lagrange fvals map dotz]. rewrite IH. ring. Qed.
Lemma factors_value : forall xs before, Forall canonical before -> Forall canonical xs -> exists fs, factors_from before xs = Ok fs /\ Forall canonical fs /\
  Forall2 (fun f v => sval f ≡ v) fs (fvals (map sval before) (map sval xs)).
Proof.
  induction xs as [|x xs IH]; intros before Fb F; [exists []; repeat split; constructor|]. inversion F as [|? ? Hx F']; subst. cbn [factors_from map fvals].
  destruct (factor_value (before ++ xs) x ltac:(apply Forall_app; split; assumption) Hx) as (f & -> & Hf & Vf). cbn [bind].
  destruct (IH (before ++ [x]) ltac:(apply Forall_app; split; [assumption|constructor; [exact Hx|constructor]]) F') as (fs & -> & Hfs & Vfs). cbn [bind]. exists (f :: fs). split; [reflexivity|]. split; [constructor; assumption|].
  rewrite map_app in Vf, Vfs. constructor; [exact Vf|exact Vfs].
Qed.
Lemma dotz_cong : forall fs vs, Forall2 (fun f v => sval f ≡ v) fs vs -> forall ys, dotz (map sval fs) ys ≡ dotz vs ys.
Proof.
  intros fs vs F. induction F as [|f v fs vs E F IH]; intros [|y ys]; try reflexivity. cbn [map dotz]. rewrite <- moda, <- modm, E, modm, moda, <- moda', IH, moda'. reflexivity.
Qed.
Lemma dot_value : forall fs ys, Forall canonical fs -> Forall canonical ys -> exists r, dot fs ys = Ok r /\ canonical r /\ sval r = dotz (map sval fs) (map sval ys) mod ell.
Proof.
  assert (Z0 : exists r, Ok scalar_zero = Ok r /\ canonical r /\ sval r = 0 mod ell) by (destruct zero_c as [C V]; exists scalar_zero; rewrite V; repeat split; apply C).
  induction fs as [|f fs IH]; intros [|y ys] Ff Fy; try exact Z0. inversion Ff as [|? ? Hf Ff']; subst. inversion Fy as [|? ? Hy Fy']; subst. cbn [dot map dotz].
  destruct (mul_c f y (proj1 Hf) (proj1 Hy)) as (t & -> & Ht & Vt). cbn [bind]. destruct (IH ys Ff' Fy') as (r & -> & Hr & Vr). cbn [bind]. destruct (add_c t r Ht Hr) as (u & -> & Hu & Vu). exists u. split; [reflexivity|]. split; [exact Hu|].
  rewrite Vu, Vt, Vr, moda, moda'. reflexivity.
Qed.
Lemma apart_canon : forall xs, Forall canonical xs -> NoDup xs -> apart (map sval xs).
Proof.
  intros xs F N. induction N as [|x xs NI N IH]; [constructor|]. inversion F as [|? ? Hx F']; subst. cbn [map]. constructor; [|exact (IH F')]. apply Forall_forall. intros v Hv X. apply in_map_iff in Hv. destruct Hv as (x' & <- & Hin).
  apply NI. rewrite Forall_forall in F'. rewrite (canon_eq x x' Hx (F' x' Hin)); [exact Hin|]. apply eqm. exact X.
Qed.
Lemma shares_canon : forall cs xs ys, Forall canonical cs -> Forall canonical xs -> Forall2 (fun x y => share cs x = Ok y) xs ys -> Forall canonical ys /\ Forall2 (fun y v => sval y = v mod ell) ys (map (poly (map sval cs)) (map sval xs)).
Proof.
  intros cs xs ys Fc Fx F. induction F as [|x y xs ys E F IH]; [split; constructor|]. inversion Fx as [|? ? Hx Fx']; subst. destruct (IH Fx') as [I1 I2]. destruct (share_value cs x Fc (proj1 Hx)) as (y' & E' & Hy & V). rewrite E in E'. injection E' as <-.
  split; constructor; assumption.
Qed.
Lemma dotz_r : forall fs ys vs, Forall2 (fun y v => sval y = v mod ell) ys vs -> dotz fs (map sval ys) ≡ dotz fs vs.
Proof.
  intros fs ys vs F. revert fs. induction F as [|y v ys vs E F IH]; intros [|f fs]; try reflexivity. cbn [map dotz]. rewrite E, <- moda, modm', moda, <- moda', IH, moda'. reflexivity.
Qed.
Lemma dot_secret : forall cs xs ys fs, Forall canonical cs -> Forall canonical xs -> NoDup xs -> (length cs <= length xs)%nat -> Forall2 (fun x y => share cs x = Ok y) xs ys -> factors xs = Ok fs ->
  dotz (map sval fs) (map sval ys) ≡ poly (map sval cs) 0.
Proof.
  intros cs xs ys fs Fc Fx N L F E. destruct (factors_value xs [] (Forall_nil _) Fx) as (fs' & E' & Hf & Vf). unfold factors in E. rewrite E in E'. injection E' as <-. cbn [map] in Vf.
  destruct (shares_canon cs xs ys Fc Fx F) as [Hy Vy]. rewrite (dotz_r _ _ _ Vy), (dotz_cong _ _ Vf), <- lagrange_dot. apply lagrange_ok; [exact (apart_canon xs Fx N)|rewrite !map_length; exact L].
Qed.
Theorem recover_ok : forall c cs xs ys, canonical c -> Forall canonical cs -> Forall canonical xs -> NoDup xs -> (length (c :: cs) <= length xs)%nat -> Forall2 (fun x y => share (c :: cs) x = Ok y) xs ys -> recover xs ys = Ok c.
Proof.
  intros c cs xs ys Hc Fc Fx N L F. pose proof (Forall_cons _ Hc Fc) as FC. unfold recover. destruct (factors_value xs [] (Forall_nil _) Fx) as (fs & E & Hf & Vf). unfold factors. rewrite E. cbn [bind].
  destruct (shares_canon (c :: cs) xs ys FC Fx F) as [Hy Vy]. destruct (dot_value fs ys Hf Hy) as (r & -> & Hr & V). apply f_equal. apply canon_eq; [exact Hr|exact Hc|]. rewrite V, (dot_secret (c :: cs) xs ys fs FC Fx N L F E).
  rewrite Z.mod_mod by (pose proof ellp; lia). f_equal. cbn [map poly]. ring.
Qed.

(** ** One polynomial through given points *)
Lemma function_of : forall vs ws : list Z, NoDup vs -> length ws = length vs -> exists g : Z -> Z, map g vs = ws.
Proof.
  induction vs as [|v vs IH]; intros [|w ws] N L; try discriminate L; [exists (fun z => z); reflexivity|]. inversion N as [|? ? NI N']; subst. injection L as L. destruct (IH ws N' L) as (g & E).
  exists (fun z => if z =? v then w else g z). cbn [map]. rewrite Z.eqb_refl. f_equal. rewrite <- E. apply map_ext_in. intros a Ha. destruct (a =? v) eqn:X; [|reflexivity]. apply Z.eqb_eq in X. subst. contradiction.
Qed.
Lemma scalar_of : forall n, exists s, canonical s /\ sval s = n mod ell.
Proof.
  intro n. pose proof ellp as EP. assert (R : 0 <= n mod ell < ell) by (apply Z.mod_pos_bound; lia).
  destruct (canonical_exists (le_bytes 57 (n mod ell)) (le_bytes_bytes _ _)) as (z & E & Sz & V); rewrite le_val_bytes57 in * by exact R; [lia|]. exists z. split; [split; [exact Sz|lia]|exact V].
Qed.
Lemma scalars_of : forall cs, exists ss, Forall canonical ss /\ length ss = length cs /\ Forall2 (fun u v => u ≡ v) (map sval ss) cs.
Proof.
  induction cs as [|c cs (ss & F & L & E)]; [exists []; repeat split; constructor|]. destruct (scalar_of c) as (s & Hs & V). exists (s :: ss). split; [constructor; assumption|]. split; [cbn [length]; rewrite L; reflexivity|].
  constructor; [rewrite V; apply Z.mod_mod; pose proof ellp; lia|exact E].
Qed.
Lemma poly_cong : forall a b, Forall2 (fun u v => u ≡ v) a b -> forall x, poly a x ≡ poly b x.
Proof. intros a b F x. induction F as [|u v a b E F IH]; [reflexivity|]. cbn [poly]. rewrite <- moda, E, moda, <- moda', <- modm', IH, modm', moda'. reflexivity. Qed.
Lemma svals_inj : forall a b, Forall canonical a -> Forall canonical b -> Forall2 (fun u v => u ≡ v) (map sval a) (map sval b) -> a = b.
Proof.
  induction a as [|x a IH]; intros [|y b] Fa Fb F; inversion F; subst; [reflexivity|]. inversion Fa; inversion Fb; subst. f_equal; [apply canon_eq; assumption|apply IH; assumption].
Qed.
Lemma nodup_svals : forall xs, Forall canonical xs -> NoDup xs -> NoDup (map sval xs).
Proof.
  intros xs F N. induction N as [|x xs NI N IH]; [constructor|]. inversion F as [|? ? Hx F']; subst. cbn [map]. constructor; [|exact (IH F')]. intro Hv. apply in_map_iff in Hv. destruct Hv as (x' & E & Hin).
  apply NI. rewrite Forall_forall in F'. rewrite (canon_eq x x' Hx (F' x' Hin)); [exact Hin|rewrite E; reflexivity].
Qed.
Definition through (cs xs ys : list scalar) : Prop := Forall2 (fun x y => share cs x = Ok y) xs ys.
Lemma through_iff : forall cs xs ys, Forall canonical cs -> Forall canonical xs -> Forall canonical ys -> length ys = length xs ->
  (through cs xs ys <-> Forall2 (fun x y => poly (map sval cs) x ≡ y) (map sval xs) (map sval ys)).
Proof.
  intros cs xs ys Fc Fx. revert ys. induction Fx as [|x xs Hx Fx IH]; intros [|y ys] Fy L; try discriminate L; [split; constructor|]. inversion Fy as [|? ? Hy Fy']; subst. injection L as L. specialize (IH ys Fy' L).
  destruct (share_value cs x Fc (proj1 Hx)) as (y' & E & Hy' & V). cbn [map]. split; intro F; inversion F as [|? ? ? ? E0 F']; subst; (constructor; [|apply IH; exact F']).
  - rewrite E in E0. injection E0 as ->. rewrite V. symmetry. apply Z.mod_mod. pose proof ellp. lia.
  - rewrite E. f_equal. apply canon_eq; [exact Hy'|exact Hy|]. rewrite V, Z.mod_mod by (pose proof ellp; lia). exact E0.
Qed.
Theorem through_one : forall xs ys, Forall canonical xs -> Forall canonical ys -> NoDup xs -> length ys = length xs ->
  exists cs, (Forall canonical cs /\ length cs = length xs /\ through cs xs ys) /\ forall cs', Forall canonical cs' -> length cs' = length xs -> through cs' xs ys -> cs' = cs.
Proof.
  intros xs ys Fx Fy N L. pose proof (apart_canon xs Fx N) as A. destruct (function_of (map sval xs) (map sval ys) (nodup_svals xs Fx N)) as (g & G); [rewrite !map_length; exact L|].
  destruct (interpolate _ A g) as (zs & Lz & F). destruct (scalars_of zs) as (cs & Fc & Lc & Ec). rewrite map_length in Lz. exists cs. split.
  - split; [exact Fc|]. split; [lia|]. apply through_iff; [assumption..|]. rewrite <- G. clear -F Ec. revert F. generalize (map sval xs). intros vs F. induction F as [|x vs E F IH]; [constructor|]. cbn [map]. constructor; [rewrite (poly_cong _ _ Ec x); exact E|exact IH].
  - intros cs' Fc' Lc' T. apply (through_iff cs' xs ys Fc' Fx Fy L) in T. apply svals_inj; [exact Fc'|exact Fc|]. apply (agree (map sval xs)); [exact A|rewrite !map_length; lia|rewrite !map_length; lia|].
    rewrite <- G in T. clear -F Ec T. revert F T. generalize (map sval xs). intros vs F T. induction F as [|x vs E F IH]; [constructor|]. inversion T as [|? ? ? ? E' T']; subst. constructor; [rewrite (poly_cong _ _ Ec x), E'; symmetry; exact E|apply IH; exact T'].
Qed.
Lemma share_zero : forall c cs, canonical c -> Forall canonical cs -> share (c :: cs) scalar_zero = Ok c.
Proof.
  intros c cs Hc Fc. destruct zero_c as [Z0 V0]. destruct (share_value (c :: cs) scalar_zero (Forall_cons _ Hc Fc) (proj1 Z0)) as (y & E & Hy & V). rewrite E. f_equal. apply canon_eq; [exact Hy|exact Hc|].
  rewrite V, V0, Z.mod_mod by (pose proof ellp; lia). f_equal. cbn [map poly]. ring.
Qed.
(** With one share fewer than coefficients, every secret is possible, in exactly one way. *)
Theorem shares_hide : forall s xs ys, canonical s -> Forall canonical xs -> Forall canonical ys -> NoDup xs -> ~ In scalar_zero xs -> length ys = length xs ->
  exists cs, (Forall canonical cs /\ length cs = length xs /\ Forall2 (fun x y => share (s :: cs) x = Ok y) xs ys) /\
    forall cs', Forall canonical cs' -> length cs' = length xs -> Forall2 (fun x y => share (s :: cs') x = Ok y) xs ys -> cs' = cs.
Proof.
  intros s xs ys Hs Fx Fy N Z L. destruct (through_one (scalar_zero :: xs) (s :: ys)) as (cs & (Fc & Lc & T) & U); [constructor; [apply zero_c|exact Fx]|constructor; assumption|constructor; assumption|cbn [length]; lia|].
  destruct cs as [|c cs]; [discriminate Lc|]. inversion Fc as [|? ? Hc Fc']; subst. inversion T as [|? ? ? ? E T']; subst. rewrite (share_zero c cs Hc Fc') in E. injection E as ->. exists cs. split; [split; [exact Fc'|split; [injection Lc as Lc; exact Lc|exact T']]|].
  intros cs' F' L' T2. assert (X : s :: cs' = s :: cs); [|injection X as X; exact X]. apply U; [constructor; assumption|cbn [length]; lia|]. constructor; [apply share_zero; assumption|exact T2].
Qed.
(** The same party twice: the factors are 0. *)
Theorem twice_zero : forall c cs x y, canonical c -> Forall canonical cs -> canonical x -> share (c :: cs) x = Ok y -> recover [x; x] [y; y] = Ok scalar_zero.
Proof.
  intros c cs x y Hc Fc Hx E. pose proof ellp as EP. destruct (share_value (c :: cs) x (Forall_cons _ Hc Fc) (proj1 Hx)) as (y' & E' & Hy & _). rewrite E in E'. injection E' as <-. assert (Fx : Forall canonical [x; x]) by (constructor; [exact Hx|constructor; [exact Hx|constructor]]).
  assert (Fy : Forall canonical [y; y]) by (constructor; [exact Hy|constructor; [exact Hy|constructor]]). unfold recover. destruct (factors_value [x; x] [] (Forall_nil _) Fx) as (fs & Ef & Hf & Vf). unfold factors. rewrite Ef. cbn [bind].
  destruct (dot_value fs [y; y] Hf Fy) as (r & -> & Hr & V). f_equal. destruct zero_c as [Z0 V0]. apply canon_eq; [exact Hr|exact Z0|]. rewrite V, V0, Z.mod_mod, (dotz_cong _ _ Vf) by lia.
  cbn [map fvals dotz app tops]. assert (I0 : inv ((sval x - sval x) * 1) = 0) by (rewrite Z.sub_diag; apply Z.pow_0_l; lia). rewrite I0. reflexivity.
Qed.

(** ** On strings *)
Section Strings.
Variable B : backend.
Hypothesis Sh : shipped B.
Notation run e := (api_run B e).
Fixpoint elem (fs : list scalar) (ns : list Z) : element := match fs, ns with f :: fs', n :: ns' => EAdd (ETimes (EReceived n) f) (elem fs' ns') | _, _ => EZero end.
Lemma elem_calls : forall fs ns, calls (elem fs ns) = combined fs (map string_of ns).
Proof. induction fs as [|f fs IH]; intros [|n ns]; try reflexivity. cbn [elem calls map combined]. rewrite IH. reflexivity. Qed.
Lemma elem_ok : forall fs ns, Forall canonical fs -> scalars_ok (elem fs ns).
Proof. intros fs ns F. revert ns. induction F as [|f fs Hf F IH]; intros [|n ns]; try exact I. cbn [elem scalars_ok]. split; [split; [exact I|exact (proj1 Hf)]|apply IH]. Qed.
Lemma elem_exp : forall fs ns, exponent (elem fs ns) = dotz (map sval fs) ns.
Proof. induction fs as [|f fs IH]; intros [|n ns]; try reflexivity. cbn [elem exponent map dotz]. rewrite IH. change (eval 32 f) with (sval f). ring. Qed.
Lemma dotz_scale : forall p fs ys, dotz fs (map (fun y => p * y) ys) = p * dotz fs ys.
Proof. intros p. induction fs as [|f fs IH]; intros [|y ys]; cbn [map dotz]; try ring. rewrite IH. ring. Qed.
Theorem combined_value : forall p c cs xs ys bs, canonical c -> Forall canonical cs -> Forall canonical xs -> NoDup xs -> (length (c :: cs) <= length xs)%nat ->
  Forall2 (fun x y => share (c :: cs) x = Ok y) xs ys -> Forall2 (fun y b => run (shared_secret (string_of p) y) = Ok (Some b)) ys bs ->
  exists fs, factors xs = Ok fs /\ run (ADcCompress (combined fs bs)) = run (shared_secret (string_of p) c).
Proof.
  intros p c cs xs ys bs Hc Fc Fx N L F Fb. pose proof (Forall_cons _ Hc Fc) as FC. destruct (factors_value xs [] (Forall_nil _) Fx) as (fs & E & Hf & Vf). exists fs. split; [exact E|].
  destruct (shares_canon (c :: cs) xs ys FC Fx F) as [Hy _]. assert (Eb : bs = map string_of (map (fun y => p * y) (map sval ys))).
  { clear -Fb Hy Sh. induction Fb as [|y b ys bs Eb Fb IH]; [reflexivity|]. inversion Hy as [|? ? Hy0 Hy']; subst. cbn [map]. rewrite <- IH by exact Hy'. f_equal. rewrite (shared_string B Sh p y (proj1 Hy0)) in Eb. apply (proj1 (some_inj _ _ _)) in Eb. symmetry. exact Eb. }
  rewrite (shared_string B Sh p c (proj1 Hc)), Eb, <- elem_calls. rewrite (encoded B Sh _ (elem_ok _ _ Hf)). apply (proj2 (some_inj _ _ _)), string_inj. rewrite elem_exp, dotz_scale, <- modm', (dot_secret (c :: cs) xs ys fs FC Fx N L F E), modm'.
  f_equal. cbn [map poly]. ring.
Qed.
Fixpoint pub (ns : list Z) (x : scalar) : element := match ns with [] => EZero | n :: ns' => EAdd (EReceived n) (ETimes (pub ns' x) x) end.
Lemma pub_calls : forall ns x, calls (pub ns x) = published (map string_of ns) x.
Proof. induction ns as [|n ns IH]; intro x; [reflexivity|]. cbn [pub calls map published]. rewrite IH. reflexivity. Qed.
Lemma pub_ok : forall ns x, is_scalar x -> scalars_ok (pub ns x).
Proof. induction ns as [|n ns IH]; intros x Hx; [exact I|]. exact (conj I (conj (IH x Hx) Hx)). Qed.
Lemma pub_exp : forall ns x, exponent (pub ns x) = poly ns (sval x).
Proof. induction ns as [|n ns IH]; intro x; [reflexivity|]. cbn [pub exponent poly]. rewrite IH. change (eval 32 x) with (sval x). ring. Qed.
Theorem check_value : forall ns x y, is_scalar x -> is_scalar y -> run (check_share (map string_of ns) x y) = Ok (Some (sval y mod ell =? poly ns (sval x) mod ell)).
Proof.
  intros ns x y Hx Hy. unfold check_share. rewrite <- pub_calls. refine (eq_trans (compared B Sh (ETimes EBase y) (pub ns x) (conj I Hy) (pub_ok ns x Hx)) _). rewrite pub_exp. cbn [exponent]. change (eval 32 y) with (sval y). rewrite Z.mul_1_l. reflexivity.
Qed.
Theorem check_public : forall cs x y bs, Forall canonical cs -> is_scalar x -> canonical y -> Forall2 (fun c b => run (public_key c) = Ok (Some b)) cs bs ->
  (run (check_share bs x y) = Ok (Some true) <-> share cs x = Ok y).
Proof.
  intros cs x y bs Fc Hx Hy F. assert (E : bs = map string_of (map sval cs)).
  { clear -F Fc Sh. induction F as [|c b cs bs E F IH]; [reflexivity|]. inversion Fc as [|? ? Hc Fc']; subst. cbn [map]. rewrite <- IH by exact Fc'. f_equal. rewrite (public_string B Sh c (proj1 Hc)) in E. apply (proj1 (some_inj _ _ _)) in E. symmetry. exact E. }
  rewrite E, (check_value _ x y Hx (proj1 Hy)), some_inj, Z.eqb_eq. destruct (share_value cs x Fc Hx) as (y' & -> & Hy' & V). split; intro X.
  - f_equal. apply canon_eq; [exact Hy'|exact Hy|]. rewrite V, Z.mod_mod by (pose proof ellp; lia). symmetry. exact X.
  - injection X as <-. rewrite V. apply Z.mod_mod. pose proof ellp. lia.
Qed.
End Strings.

Lemma num_c : forall k, 0 <= k < ell -> canonical (num k) /\ sval (num k) = k.
Proof. intros k Hk. destruct (num_ok k Hk) as (C & _ & V & _). exact (conj C V). Qed.
Lemma share_num : forall cs x v, Forall (fun k => 0 <= k < ell) cs -> 0 <= x < ell -> 0 <= v < ell -> poly cs x = v -> share (map num cs) (num x) = Ok (num v).
Proof.
  intros cs x v F Hx Hv E. destruct (num_c x Hx) as [Cx Vx]. destruct (num_c v Hv) as [Cv Vv]. assert (K : Forall canonical (map num cs) /\ map sval (map num cs) = cs).
  { clear -F. induction F as [|k cs Hk F [I1 I2]]; [split; [constructor|reflexivity]|]. destruct (num_c k Hk) as [Ck Vk]. cbn [map]. split; [constructor; assumption|]. rewrite I2, Vk. reflexivity. }
  destruct K as [Fc Ec]. destruct (share_value (map num cs) (num x) Fc (proj1 Cx)) as (y & -> & Hy & V). f_equal. apply canon_eq; [exact Hy|exact Cv|]. rewrite V, Ec, Vx, Vv, E. apply Z.mod_mod. lia.
Qed.
Lemma num_inj : forall a b, 0 <= a < ell -> 0 <= b < ell -> num a = num b -> a = b.
Proof. intros a b Ha Hb E. rewrite <- (proj2 (num_c a Ha)), <- (proj2 (num_c b Hb)), E. reflexivity. Qed.
Theorem twice_refuted : exists c cs xs ys, canonical c /\ Forall canonical cs /\ Forall canonical xs /\ ~ In scalar_zero xs /\ (length (c :: cs) <= length xs)%nat /\
  Forall2 (fun x y => share (c :: cs) x = Ok y) xs ys /\ recover xs ys <> Ok c.
Proof.
  assert (L : 100 < ell) by (exact (eq_refl Lt)). destruct (num_c 7 ltac:(lia)) as [C7 V7]. destruct (num_c 3 ltac:(lia)) as [C3 V3]. destruct (num_c 2 ltac:(lia)) as [C2 V2].
  assert (E : share [num 7; num 3] (num 2) = Ok (num 13)) by (apply (share_num [7; 3] 2 13); [repeat constructor; lia|lia|lia|reflexivity]).
  exists (num 7), [num 3], [num 2; num 2], [num 13; num 13]. split; [exact C7|]. split; [constructor; [exact C3|constructor]|]. split; [constructor; [exact C2|constructor; [exact C2|constructor]]|]. split.
  { destruct zero_c as [_ V0]. intros [X|[X|[]]]; rewrite <- X, V2 in V0; discriminate V0. }
  split; [cbn; lia|]. split; [constructor; [exact E|constructor; [exact E|constructor]]|]. rewrite (twice_zero (num 7) [num 3] (num 2) (num 13) C7 (Forall_cons _ C3 (Forall_nil _)) C2 E). intro X. apply ok_inj in X.
  destruct zero_c as [_ V0]. rewrite X, V7 in V0. discriminate V0.
Qed.
Lemma shares_case : forall B, shipped B ->
  (canonical (num 7) /\ Forall canonical [num 3] /\ Forall canonical [num 1; num 2] /\ NoDup [num 1; num 2] /\ ~ In scalar_zero [num 1; num 2]) /\
  (share [num 7; num 3] (num 1) = Ok (num 10) /\ share [num 7; num 3] (num 2) = Ok (num 13) /\ recover [num 1; num 2] [num 10; num 13] = Ok (num 7)) /\
  (api_run B (check_share [string_of 7; string_of 3] (num 2) (num 13)) = Ok (Some true) /\ api_run B (check_share [string_of 7; string_of 3] (num 2) (num 14)) = Ok (Some false)).
Proof.
  intros B Sh. assert (L : 100 < ell) by (exact (eq_refl Lt)). destruct (num_c 7 ltac:(lia)) as [C7 V7]. destruct (num_c 3 ltac:(lia)) as [C3 V3]. destruct (num_c 2 ltac:(lia)) as [C2 V2]. destruct (num_c 1 ltac:(lia)) as [C1 V1].
  destruct (num_c 13 ltac:(lia)) as [C13 V13]. destruct (num_c 14 ltac:(lia)) as [C14 V14]. destruct zero_c as [_ V0].
  assert (F3 : Forall canonical [num 3]) by (constructor; [exact C3|constructor]). assert (F12 : Forall canonical [num 1; num 2]) by (constructor; [exact C1|constructor; [exact C2|constructor]]).
  assert (N : NoDup [num 1; num 2]) by (constructor; [intros [X|[]]; apply num_inj in X; lia|repeat constructor; intros []]).
  assert (E1 : share [num 7; num 3] (num 1) = Ok (num 10)) by (apply (share_num [7; 3] 1 10); [repeat constructor; lia|lia|lia|reflexivity]).
  assert (E2 : share [num 7; num 3] (num 2) = Ok (num 13)) by (apply (share_num [7; 3] 2 13); [repeat constructor; lia|lia|lia|reflexivity]).
  split; [split; [exact C7|split; [exact F3|split; [exact F12|split; [exact N|]]]]|].
  { intros [X|[X|[]]]; rewrite <- X in V0; [rewrite V1 in V0|rewrite V2 in V0]; discriminate V0. }
  split; [split; [exact E1|split; [exact E2|]]|].
  { apply (recover_ok (num 7) [num 3]); [exact C7|exact F3|exact F12|exact N|cbn; lia|constructor; [exact E1|constructor; [exact E2|constructor]]]. }
  assert (K : forall y, is_scalar y -> 0 <= sval y < ell -> api_run B (check_share [string_of 7; string_of 3] (num 2) y) = Ok (Some (sval y =? 13))).
  { intros y Hy Ry. refine (eq_trans (check_value B Sh [7; 3] (num 2) y (proj1 C2) Hy) _). rewrite V2. cbn [poly]. change (7 + 2 * (3 + 2 * 0)) with 13. rewrite !Z.mod_small by lia. reflexivity. }
  split; rewrite K; [rewrite V13; reflexivity|exact (proj1 C13)|rewrite V13; lia|rewrite V14; reflexivity|exact (proj1 C14)|rewrite V14; lia].
Qed.
Theorem hide_refuted : exists s xs ys, canonical s /\ Forall canonical xs /\ Forall canonical ys /\ NoDup xs /\ length ys = length xs /\
  ~ exists cs, Forall canonical cs /\ length cs = length xs /\ Forall2 (fun x y => share (s :: cs) x = Ok y) xs ys.
Proof.
  assert (L : 100 < ell) by (exact (eq_refl Lt)). destruct (num_c 7 ltac:(lia)) as [C7 V7]. destruct (num_c 3 ltac:(lia)) as [C3 V3]. exists (num 7), [scalar_zero], [num 3].
  split; [exact C7|]. split; [constructor; [apply zero_c|constructor]|]. split; [constructor; [exact C3|constructor]|]. split; [constructor; [intros []|constructor]|]. split; [reflexivity|].
  intros (cs & Fc & _ & F). inversion F as [|? ? ? ? E _]; subst. rewrite (share_zero (num 7) cs C7 Fc) in E. apply ok_inj in E. apply num_inj in E; lia.
Qed.
