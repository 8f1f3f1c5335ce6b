(** Postconditions for computations that may panic. *)
Require Import ZArith List.
From Verif Require Import Base.
Import ListNotations.
Open Scope res_scope.

(** [okp r Q]: r returns without panicking, and its value satisfies Q. *)
Definition okp {A} (r : res A) (Q : A -> Prop) : Prop := exists a, r = Ok a /\ Q a.

Lemma okp_ret : forall {A} (a : A) (Q : A -> Prop), Q a -> okp (Ok a) Q.
Proof. intros A a Q H. exists a. split; [reflexivity|exact H]. Qed.
Lemma okp_bind : forall {A B} (e : res A) (f : A -> res B) P Q,
  okp e P -> (forall a, P a -> okp (f a) Q) -> okp (bind e f) Q.
Proof. intros A B e f P Q (a & -> & H) K. exact (K a H). Qed.
Lemma okp_weaken : forall {A} (r : res A) (P Q : A -> Prop), okp r P -> (forall a, P a -> Q a) -> okp r Q.
Proof. intros A r P Q (a & E & H) K. exists a. auto. Qed.
Lemma okp_inv : forall {A} (r : res A) Q, okp r Q -> exists a, r = Ok a /\ Q a.
Proof. intros A r Q H. exact H. Qed.
Lemma okp_ok : forall {A} (a : A) Q, okp (Ok a) Q -> Q a.
Proof. intros A a Q (b & E & H). injection E as ->. exact H. Qed.
Lemma okp_not_panic : forall {A} (r : res A) Q, okp r Q -> r <> Panic.
Proof. intros A r Q (a & -> & _). discriminate. Qed.
