(** Polynomials modulo the prime l. *)
Require Import ZArith Znumtheory List Lia.
From Verif Require Import Base SpecParams Primes ScalarMain SignatureLog SpecShares.
Import ListNotations.
Open Scope Z_scope.
Local Opaque ell.
Local Notation "a ≡ b" := (a mod ell = b mod ell) (at level 70).
Lemma ellp : 2 < ell. Proof. exact (eq_refl Lt). Qed.

Definition null (a : Z) : Prop := (ell | a).
Lemma null_mod : forall a, null a <-> a mod ell = 0. Proof. intro a. pose proof ellp. unfold null. symmetry. apply Z.mod_divide. lia. Qed.
Lemma eqm : forall a b, a ≡ b <-> null (a - b). Proof. exact cong. Qed.
Lemma null_mult : forall a b, null (a * b) -> null a \/ null b. Proof. exact (prime_mult ell prime_ell). Qed.
Lemma null_l : forall a b, null a -> null (a * b). Proof. intros. apply Z.divide_mul_l. assumption. Qed.
Lemma null_r : forall a b, null b -> null (a * b). Proof. intros. apply Z.divide_mul_r. assumption. Qed.
Lemma null_add : forall a b, null a -> null b -> null (a + b). Proof. intros. apply Z.divide_add_r; assumption. Qed.
Lemma null_sub : forall a b, null a -> null b -> null (a - b). Proof. intros. apply Z.divide_sub_r; assumption. Qed.
Lemma null_0 : null 0. Proof. exists 0. reflexivity. Qed.

Fixpoint quot (cs : list Z) (a : Z) : list Z :=
  match cs with
  | [] => []
  | c :: cs' => match cs' with [] => [] | _ :: _ => poly cs' a :: quot cs' a end
  end.
Lemma quot_length : forall cs a, length (quot cs a) = pred (length cs).
Proof. induction cs as [|c [|c' cs'] IH]; intro a; [reflexivity|reflexivity|]. cbn [quot length pred]. f_equal. exact (IH a). Qed.
Lemma quot_poly : forall cs a x, poly cs x - poly cs a = (x - a) * poly (quot cs a) x.
Proof.
  induction cs as [|c [|c' cs'] IH]; intros a x; [cbn; ring|cbn; ring|]. specialize (IH a x). remember (c' :: cs') as t eqn:Et. cbn [poly]. assert (Q : quot (c :: t) a = poly t a :: quot t a) by (rewrite Et; reflexivity). rewrite Q. cbn [poly].
  transitivity (x * (poly t x - poly t a) + (x - a) * poly t a); [ring|]. rewrite IH. ring.
Qed.
Lemma quot_zero : forall cs a, Forall null (quot cs a) -> null (poly cs a) -> Forall null cs.
Proof.
  induction cs as [|c [|c' cs'] IH]; intros a F H; [constructor| |].
  - constructor; [|constructor]. cbn [poly] in H. replace c with (c + a * 0) by ring. exact H.
  - assert (Q : quot (c :: c' :: cs') a = poly (c' :: cs') a :: quot (c' :: cs') a) by reflexivity. rewrite Q in F. inversion F as [|? ? F0 F']; subst. constructor; [|exact (IH a F' F0)].
    change (null (c + a * poly (c' :: cs') a)) in H. replace c with (c + a * poly (c' :: cs') a - a * poly (c' :: cs') a) by ring. apply null_sub; [exact H|apply null_r; exact F0].
Qed.
(** A polynomial with as many zeros as coefficients is zero. *)
Definition apart (xs : list Z) : Prop := ForallOrdPairs (fun a b => ~ null (a - b)) xs.
Lemma roots : forall xs cs, apart xs -> (length cs <= length xs)%nat -> Forall (fun x => null (poly cs x)) xs -> Forall null cs.
Proof.
  induction xs as [|a xs IH]; intros cs A L F; [destruct cs; [constructor|cbn in L; lia]|].
  inversion A as [|? ? A0 A']; subst. inversion F as [|? ? F0 F']; subst. apply (quot_zero cs a); [|exact F0]. apply IH; [exact A'|rewrite quot_length; cbn [length] in L; lia|].
  rewrite Forall_forall in *. intros x Hx. pose proof (null_sub _ _ (F' x Hx) F0) as D. rewrite quot_poly in D. apply null_mult in D. destruct D as [D|D]; [|exact D].
  exfalso. apply (A0 x Hx). replace (a - x) with (-1 * (x - a)) by ring. apply null_r. exact D.
Qed.
Lemma poly_null : forall cs x, Forall null cs -> null (poly cs x).
Proof. intros cs x F. induction F; [exact null_0|]. cbn [poly]. apply null_add; [assumption|apply null_r; assumption]. Qed.

(** Difference of two polynomials of the same length. *)
Fixpoint lsub (a b : list Z) : list Z := match a, b with x :: a', y :: b' => (x - y) :: lsub a' b' | _, _ => [] end.
Lemma lsub_poly : forall a b x, length a = length b -> poly (lsub a b) x = poly a x - poly b x.
Proof. induction a as [|u a IH]; intros [|v b] x L; try discriminate L; [reflexivity|]. cbn [lsub poly]. injection L as L. rewrite IH by exact L. ring. Qed.
Lemma lsub_length : forall a b, length a = length b -> length (lsub a b) = length a.
Proof. induction a as [|u a IH]; intros [|v b] L; try discriminate L; [reflexivity|]. cbn [lsub length]. injection L as L. rewrite IH by exact L. reflexivity. Qed.
Lemma agree : forall xs a b, apart xs -> length a = length b -> (length a <= length xs)%nat -> Forall (fun x => poly a x ≡ poly b x) xs -> Forall2 (fun u v => u ≡ v) a b.
Proof.
  intros xs a b A L Le F. assert (N : Forall null (lsub a b)).
  { apply (roots xs); [exact A|rewrite lsub_length by exact L; exact Le|]. eapply Forall_impl; [|exact F]. intros x E. rewrite lsub_poly by exact L. apply eqm. exact E. }
  clear -L N. revert b L N. induction a as [|u a IH]; intros [|v b] L N; try discriminate L; [constructor|]. cbn [lsub] in N. inversion N as [|? ? N0 N']; subst. constructor; [apply eqm; exact N0|]. apply IH; [injection L as L; exact L|exact N'].
Qed.

(** One with given values. *)
Fixpoint lin (q : list Z) (a carry : Z) : list Z := match q with [] => [carry] | q0 :: q' => (carry - a * q0) :: lin q' a q0 end.
Lemma lin_poly : forall q a c x, poly (lin q a c) x = c + (x - a) * poly q x.
Proof. induction q as [|q0 q IH]; intros a c x; cbn [lin poly]; [ring|]. rewrite IH. ring. Qed.
Lemma lin_length : forall q a c, length (lin q a c) = S (length q).
Proof. induction q as [|q0 q IH]; intros a c; [reflexivity|]. cbn [lin length]. rewrite IH. reflexivity. Qed.
Definition inv (d : Z) : Z := d ^ (ell - 2).
Lemma inv_ok : forall d, ~ null d -> d * inv d ≡ 1.
Proof. intros d N. unfold inv. rewrite (pow_pred_pred d ell ellp), (Z.mod_small 1) by (split; [lia|reflexivity]). apply ell_fermat. rewrite <- null_mod. exact N. Qed.
Lemma interpolate : forall xs, apart xs -> forall g : Z -> Z, exists cs, length cs = length xs /\ Forall (fun x => poly cs x ≡ g x) xs.
Proof.
  induction xs as [|a xs IH]; intros A g; [exists []; split; [reflexivity|constructor]|]. inversion A as [|? ? A0 A']; subst.
  destruct (IH A' (fun x => (g x - g a) * inv (x - a))) as (q & L & F). exists (lin q a (g a)). split; [rewrite lin_length, L; reflexivity|]. constructor.
  - rewrite lin_poly, Z.sub_diag. f_equal. ring.
  - rewrite Forall_forall in *. intros x Hx. rewrite lin_poly. specialize (F x Hx). apply eqm in F. assert (N : ~ null (x - a)) by (intro X; apply (A0 x Hx); replace (a - x) with (-1 * (x - a)) by ring; apply null_r; exact X).
    pose proof (proj1 (eqm _ _) (inv_ok _ N)) as I. apply eqm.
    replace (g a + (x - a) * poly q x - g x) with ((x - a) * (poly q x - (g x - g a) * inv (x - a)) + (g x - g a) * ((x - a) * inv (x - a) - 1)) by ring. apply null_add; apply null_r; assumption.
Qed.

(** Functions that are polynomials with at most n coefficients. *)
Definition is_poly (n : nat) (g : Z -> Z) : Prop := exists cs, length cs = n /\ forall x, g x ≡ poly cs x.
Lemma poly_repeat : forall n x, poly (repeat 0 n) x = 0. Proof. induction n as [|n IH]; intro x; [reflexivity|]. cbn [repeat poly]. rewrite IH. ring. Qed.
Lemma poly_app0 : forall cs n x, poly (cs ++ repeat 0 n) x = poly cs x. Proof. induction cs as [|c cs IH]; intros n x; [apply poly_repeat|]. cbn [app poly]. rewrite IH. reflexivity. Qed.
Lemma is_poly_more : forall n k g, (n <= k)%nat -> is_poly n g -> is_poly k g.
Proof. intros n k g L (cs & Lc & E). exists (cs ++ repeat 0 (k - n)). split; [rewrite app_length, repeat_length; lia|]. intro x. rewrite poly_app0. apply E. Qed.
Fixpoint ladd (a b : list Z) : list Z := match a, b with x :: a', y :: b' => (x + y) :: ladd a' b' | _, _ => [] end.
Lemma is_poly_add : forall n g h, is_poly n g -> is_poly n h -> is_poly n (fun x => g x + h x).
Proof.
  intros n g h (a & La & Ea) (b & Lb & Eb). exists (ladd a b). assert (P : length (ladd a b) = n /\ forall x, poly (ladd a b) x = poly a x + poly b x).
  { clear Ea Eb. revert a b La Lb. induction n as [|n IH]; intros [|u a] [|v b] La Lb; try discriminate; [split; reflexivity|]. injection La as La. injection Lb as Lb. destruct (IH a b La Lb) as [L E]. cbn [ladd length poly]. split; [rewrite L; reflexivity|]. intro x. rewrite E. ring. }
  split; [exact (proj1 P)|]. intro x. rewrite (proj2 P). rewrite Z.add_mod, Ea, Eb, <- Z.add_mod by (pose proof ellp; lia). reflexivity.
Qed.
Lemma is_poly_scale : forall n g k, is_poly n g -> is_poly n (fun x => k * g x).
Proof.
  intros n g k (a & La & Ea). exists (map (Z.mul k) a). split; [rewrite map_length; exact La|]. intro x. assert (P : poly (map (Z.mul k) a) x = k * poly a x) by (clear; induction a as [|u a IH]; cbn [map poly]; [ring|rewrite IH; ring]).
  rewrite P, Z.mul_mod, Ea, <- Z.mul_mod by (pose proof ellp; lia). reflexivity.
Qed.
Lemma is_poly_lin : forall n g a, is_poly n g -> is_poly (S n) (fun x => (a - x) * g x).
Proof.
  intros n g a (q & Lq & Eq). exists (map (Z.mul (-1)) (lin q a 0)). split; [rewrite map_length, lin_length, Lq; reflexivity|]. intro x. assert (P : forall l, poly (map (Z.mul (-1)) l) x = - poly l x) by (induction l as [|u l IH]; cbn [map poly]; [reflexivity|rewrite IH; ring]).
  rewrite P, lin_poly. replace (- (0 + (x - a) * poly q x)) with ((a - x) * poly q x) by ring. rewrite Z.mul_mod, Eq, <- Z.mul_mod by (pose proof ellp; lia). reflexivity.
Qed.

(** ** Factors *)
Fixpoint tops (o : list Z) (z : Z) : Z := match o with [] => 1 | x' :: o' => (x' - z) * tops o' z end.
Lemma tops_poly : forall o, is_poly (S (length o)) (tops o).
Proof. induction o as [|a o IH]; [exists [1]; split; [reflexivity|]; intro x; f_equal; cbn [tops poly]; ring|]. exact (is_poly_lin _ _ a IH). Qed.
Lemma tops_zero : forall o z, In z o -> tops o z = 0.
Proof. induction o as [|a o IH]; intros z H; [destruct H|]. cbn [tops]. destruct H as [->|H]; [rewrite Z.sub_diag; reflexivity|rewrite (IH z H); ring]. Qed.
Lemma tops_unit : forall o z, Forall (fun a => ~ null (a - z)) o -> ~ null (tops o z).
Proof.
  intros o z F. induction F as [|a o N F IH]; cbn [tops].
  - intro X. apply null_mod in X. rewrite Z.mod_small in X by (split; [lia|reflexivity]). discriminate X.
  - intro X. apply null_mult in X. tauto.
Qed.
(** The sum over the parties xs (after [before]) of y(x) times the factor at z. *)
Fixpoint lagrange (before xs : list Z) (g : Z -> Z) (z : Z) : Z :=
  match xs with
  | [] => 0
  | x :: xs' => g x * inv (tops (before ++ xs') x) * tops (before ++ xs') z + lagrange (before ++ [x]) xs' g z
  end.
Lemma lagrange_poly : forall xs before g, is_poly (length before + length xs) (lagrange before xs g).
Proof.
  induction xs as [|x xs IH]; intros before g.
  - apply (is_poly_more 0); [lia|]. exists []. split; reflexivity.
  - cbn [lagrange]. apply is_poly_add; [apply is_poly_scale; pose proof (tops_poly (before ++ xs)) as P; rewrite app_length in P; cbn [length]; rewrite Nat.add_succ_r; exact P|].
    pose proof (IH (before ++ [x]) g) as P. rewrite app_length in P. cbn [length] in *. rewrite <- Nat.add_assoc in P. exact P.
Qed.
Lemma lagrange_other : forall xs before g z, In z before -> lagrange before xs g z = 0.
Proof.
  induction xs as [|x xs IH]; intros before g z H; [reflexivity|]. cbn [lagrange]. rewrite (tops_zero _ z) by (apply in_or_app; left; exact H). rewrite IH by (apply in_or_app; left; exact H). ring.
Qed.
Lemma lagrange_at : forall xs before g, apart xs -> Forall (fun x => Forall (fun a => ~ null (a - x)) before) xs -> Forall (fun z => lagrange before xs g z ≡ g z) xs.
Proof.
  induction xs as [|x xs IH]; intros before g A F; [constructor|]. inversion A as [|? ? A0 A']; subst. inversion F as [|? ? F0 F']; subst. cbn [lagrange]. constructor.
  - rewrite lagrange_other by (apply in_or_app; right; left; reflexivity). assert (N : ~ null (tops (before ++ xs) x)).
    { apply tops_unit. apply Forall_app. split; [exact F0|]. rewrite Forall_forall in *. intros a Ha X. apply (A0 a Ha). replace (x - a) with (-1 * (a - x)) by ring. apply null_r. exact X. }
    pose proof (proj1 (eqm _ _) (inv_ok _ N)) as I. apply eqm. replace (g x * inv (tops (before ++ xs) x) * tops (before ++ xs) x + 0 - g x) with (g x * (tops (before ++ xs) x * inv (tops (before ++ xs) x) - 1)) by ring. apply null_r. exact I.
  - assert (F2 : Forall (fun x0 => Forall (fun a => ~ null (a - x0)) (before ++ [x])) xs).
    { rewrite Forall_forall in *. intros z Hz. apply Forall_app. split; [exact (F' z Hz)|]. constructor; [exact (A0 z Hz)|constructor]. }
    pose proof (IH (before ++ [x]) g A' F2) as K. rewrite Forall_forall in *. intros z Hz. rewrite (tops_zero _ z) by (apply in_or_app; right; exact Hz). rewrite Z.mul_0_r, Z.add_0_l. exact (K z Hz).
Qed.
Theorem lagrange_ok : forall xs cs z, apart xs -> (length cs <= length xs)%nat -> lagrange [] xs (poly cs) z ≡ poly cs z.
Proof.
  intros xs cs z A L. destruct (is_poly_more _ (length xs) (poly cs) L (ex_intro _ cs (conj eq_refl (fun _ => eq_refl)))) as (a & La & Ea). destruct (lagrange_poly xs [] (poly cs)) as (b & Lb & Eb). cbn [length Nat.add] in Lb.
  rewrite Ea, Eb. pose proof (lagrange_at xs [] (poly cs) A ltac:(apply Forall_forall; intros; constructor)) as K.
  assert (F : Forall2 (fun u v => u ≡ v) b a).
  { apply (agree xs); [exact A|lia|lia|]. eapply Forall_impl; [|exact K]. intros x E. rewrite <- Eb, <- Ea. exact E. }
  clear -F. induction F as [|u v b a E F IH]; [reflexivity|]. cbn [poly]. apply eqm. apply eqm in E, IH. replace (u + z * poly b z - (v + z * poly a z)) with (u - v + z * (poly b z - poly a z)) by ring. apply null_add; [exact E|apply null_r; exact IH].
Qed.
