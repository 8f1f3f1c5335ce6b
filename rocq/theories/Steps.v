(** Code as a sequence of steps (for C53).

    StepU32.v, StepScalar.v and StepCurve.v contain the code of FieldU32Model.v, ScalarModel.v and of the curve models once
    more, written for an arbitrary notion of computation [steps].  With [panics] they are the very functions of those files
    (proved in StepPlain.v); with [traced] a run also leaves the list of everything it did, in order. *)
Require Import ZArith List Bool.
From Verif Require Import Base FiatCode.
Import ListNotations.
Open Scope Z_scope.

Record steps : Type := mkSteps {
  run : Type -> Type;
  ret : forall A, A -> run A;
  andthen : forall A B, run A -> (A -> run B) -> run B;
  fail : forall A, run A
}.
Arguments ret {s A}. Arguments andthen {s A B}. Arguments fail {s A}.
Declare Scope step_scope.
Notation "x <- e ;; f" := (andthen e (fun x => f)) (at level 61, e at next level, right associativity) : step_scope.
Notation "' p <- e ;; f" := (andthen e (fun x => let p := x in f)) (at level 61, p pattern, e at next level, right associativity) : step_scope.

Definition panics : steps := {| run := res; ret := @Ok; andthen := @bind; fail := @Panic |}.
Definition traced (E : Type) : steps := {|
  run A := (list E * res A)%type;
  ret A a := ([], Ok a);
  andthen A C m f := match m with (t, Ok a) => let (u, r) := f a in (t ++ u, r) | (t, Panic) => (t, Panic) end;
  fail A := ([], Panic)
|}.
(** One step [e] that delivers [a]. *)
Definition step {E A} (e : E) (a : A) : run (traced E) A := ([e], Ok a).

Section Loops.
Variable M : steps.
Open Scope step_scope.
(** As [for_each] and [map_res] of FieldU32Model.v. *)
Fixpoint for_eachS {I A : Type} (l : list I) (f : I -> A -> run M A) (a : A) : run M A :=
  match l with [] => ret a | i :: l' => a' <- f i a ;; for_eachS l' f a' end.
Fixpoint map_resS {A C : Type} (f : A -> run M C) (l : list A) : run M (list C) :=
  match l with [] => ret [] | x :: l' => y <- f x ;; ys <- map_resS f l' ;; ret (y :: ys) end.
End Loops.
Arguments for_eachS {M I A}. Arguments map_resS {M A C}.

(** ** Machine words *)
(** Checked arithmetic. *)
Inductive chk_op : Type :=
| CU32Add | CU32Sub | CU32Mul | CU64Add | CU64Mul | CI64Add | CI64Sub | CI8Add | CI8Sub | CI128Add | CI128Sub | CI128Mul
| CU64Sub | CU128Add | CU128Mul.
(** Arithmetic that cannot fail: bit operations, wrapping arithmetic of the given width. *)
Inductive bin_op : Type := BAnd | BOr | BXor | BAdd (w : Z) | BSub (w : Z) | BMul (w : Z).
(** Casts (to unsigned and to signed types), shifts by constants, the negative of a signed number. *)
Inductive un_op : Type := UCast (w : Z) | UShr (n : Z) | UShl (w n : Z) | UShlI (n : Z) | UNeg | UCastI (w : Z).
(** Conditions of [assert!]. *)
Inductive guard_op : Type := GLess2 | GZero.
(** Words made into booleans. *)
Inductive test_op : Type := TOne | TNonZero | TEqual (n : Z).

Record cpu (M : steps) : Type := mkCpu {
  word : Type;
  lit : Z -> word;
  chk : chk_op -> word -> word -> run M word;
  bin : bin_op -> word -> word -> run M word;
  un : un_op -> word -> run M word;
  guard : guard_op -> word -> run M unit;          (** [assert!] *)
  test : test_op -> word -> run M bool;            (** [Choice::from] of a word that is 0 or 1; [!= 0]; [==] with a constant *)
  reveal : word -> run M Z;                        (** a word handed to code that is not limb code *)
  unwrap : bool -> run M word;                     (** [Choice::unwrap_u8] *)
  branch : bool -> run M bool                      (** an [if], or the right operand of [||] *)
}.
Arguments word {M}. Arguments lit {M}. Arguments chk {M}. Arguments bin {M}. Arguments un {M}. Arguments guard {M}.
Arguments test {M}. Arguments reveal {M}. Arguments unwrap {M}. Arguments branch {M}.

(** A word where the result of a computation is expected. *)
Definition w_ret {M} {W : cpu M} (x : word W) : run M (word W) := ret x.
Coercion w_ret : word >-> run.
(** Operands that are themselves computed, left to right. *)
Definition lift1 {M A C} (f : A -> run M C) (x : run M A) : run M C := andthen x f.
Definition lift2 {M A C E} (f : A -> C -> run M E) (x : run M A) (y : run M C) : run M E := andthen x (fun a => andthen y (f a)).
Definition all {M A} (l : list (run M A)) : run M (list A) := map_resS (fun x => x) l.
Definition reveal_all {M} (W : cpu M) (l : list (word W)) : run M (list Z) := map_resS (reveal W) l.

(** Plain integers. *)
Definition chk_z (o : chk_op) (x y : Z) : res Z :=
  match o with
  | CU32Add => u32_add x y | CU32Sub => u32_sub x y | CU32Mul => u32_mul x y | CU64Add => u64_add x y | CU64Mul => u64_mul x y
  | CI64Add => i64_add x y | CI64Sub => i64_sub x y | CI8Add => i8_add x y | CI8Sub => i8_sub x y
  | CI128Add => i128_add x y | CI128Sub => i128_sub x y | CI128Mul => i128_mul x y
  | CU64Sub => u64_sub x y | CU128Add => u128_add x y | CU128Mul => u128_mul x y
  end.
Definition bin_z (o : bin_op) (x y : Z) : Z :=
  match o with
  | BAnd => Z.land x y | BOr => Z.lor x y | BXor => Z.lxor x y
  | BAdd w => wrap w (x + y) | BSub w => wrap w (x - y) | BMul w => wrap w (x * y)
  end.
Definition un_z (o : un_op) (x : Z) : Z :=
  match o with UCast w => wrap w x | UShr n => Base.shr x n | UShl w n => shl_u w x n | UShlI n => Z.shiftl x n | UNeg => - x | UCastI w => as_i w x end.
Definition guard_z (o : guard_op) (x : Z) : bool := match o with GLess2 => x <? 2 | GZero => x =? 0 end.
Definition test_z (o : test_op) (x : Z) : bool := match o with TOne => x =? 1 | TNonZero => negb (x =? 0) | TEqual n => x =? n end.
Definition plain : cpu panics := mkCpu panics
  Z (fun z => z) chk_z
  (fun o x y => Ok (bin_z o x y))
  (fun o x => Ok (un_z o x))
  (fun o x => if negb (guard_z o x) then Panic else Ok tt)
  (fun o x => Ok (test_z o x))
  (fun x => Ok x)
  (fun c => Ok (Z.b2z c))
  (fun c => Ok c).
