(** What Rust asks of [Eq] and [Hash]. *)
From Verif Require Import Base HashModel.

(** On the values meeting [ok], [eq] returns, and is an equivalence relation. *)
Definition equivalence {A : Type} (ok : A -> Prop) (eq : A -> A -> res bool) : Prop :=
  (forall a b, ok a -> ok b -> exists v, eq a b = Ok v /\ eq b a = Ok v) /\
  (forall a, ok a -> eq a a = Ok true) /\
  (forall a b c, ok a -> ok b -> ok c -> eq a b = Ok true -> eq b c = Ok true -> eq a c = Ok true).

(** Equal values hash equally, whatever the hasher. *)
Definition hash_agrees {A : Type} (ok : A -> Prop) (eq : A -> A -> res bool) (hash : forall H : hasher, A -> h_state H -> h_state H) : Prop :=
  forall a b, ok a -> ok b -> eq a b = Ok true -> forall H s, hash H a s = hash H b s.
