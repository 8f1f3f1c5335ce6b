(** The operators as callers write them: every combination of owned and borrowed operands, and the assigning forms.

    Rust picks the body of [a + b] by the types of the two operands, and the body of [a.add(b)] by looking for methods of the
    type itself before methods of traits, with the receiver as it is, then borrowed, then dereferenced.  Most bodies here only
    forward to another form (macros.rs:15-124), so which code runs in the end, and that something runs at all, depends on these
    rules: `impl Add for &ExtendedPoint` is `self.add(other)`, which is the method of ExtendedPoint, not itself again.  The bodies are
    written here as expressions, with their types, and [exec] follows the rules step by step.

    Simplified: types only say owned or borrowed; moves, lifetimes and mutability are not checked (a caller's program is one
    the compiler accepts); `a += b` is an expression whose value is the new value of a. *)
Require Import ZArith List Bool.
From Verif Require Import Base FieldBackend ScalarModel TwistedModel EdwardsModel MontgomeryModel DecafModel.
Import ListNotations.

(** edwards::ExtendedPoint, Scalar, DecafPoint, MontgomeryPoint. *)
Inductive nom : Type := EdT | ScT | DcT | MtT.
(** T and &T. *)
Inductive ty : Type := Own (t : nom) | Bor (t : nom).
Inductive op : Type := Add | Sub | Mul | AddAssign | SubAssign | MulAssign.
Inductive meth : Type := m_add | m_sub | m_neg | m_negate | m_scalar_mul.
(** Bodies without operators on these types: functions of the other model files. *)
Inductive code1 : Type := EdNegate | DcNegate.
Inductive code2 : Type := EdAddition | EdScalarMul | ScAddition | ScSubtraction | ScMultiply | DcAddition | DcSubtraction | DcDoubleAndAdd | MtLadder.

Inductive exp : Type :=
| Var (i : nat)                      (** in a body: 0 is self, 1 is the other operand *)
| Ref (e : exp)                      (** &e *)
| Deref (e : exp)                    (** *e *)
| Bin (o : op) (a b : exp)           (** a + b, a += b, ... *)
| Neg (a : exp)                      (** -a *)
| Call (m : meth) (a : exp)          (** a.m() *)
| Call2 (m : meth) (a b : exp)       (** a.m(b) *)
| Do1 (c : code1) (a : exp)
| Do2 (c : code2) (a b : exp).

Definition nom_eqb (a b : nom) : bool :=
  match a, b with EdT, EdT | ScT, ScT | DcT, DcT | MtT, MtT => true | _, _ => false end.
Definition ty_eqb (a b : ty) : bool :=
  match a, b with Own s, Own t | Bor s, Bor t => nom_eqb s t | _, _ => false end.
Definition op_eqb (a b : op) : bool :=
  match a, b with
  | Add, Add | Sub, Sub | Mul, Mul | AddAssign, AddAssign | SubAssign, SubAssign | MulAssign, MulAssign => true
  | _, _ => false
  end.
Definition meth_eqb (a b : meth) : bool :=
  match a, b with m_add, m_add | m_sub, m_sub | m_neg, m_neg | m_negate, m_negate | m_scalar_mul, m_scalar_mul => true | _, _ => false end.
Definition assigns (o : op) : bool := match o with AddAssign | SubAssign | MulAssign => true | _ => false end.

(** ** The implementations *)
Local Notation self := (Var 0).
Local Notation other := (Var 1).
(** [impl o<rhs> for lhs { type Output = out; fn ... { body } }]; for assigning operators the body gives the new [*self]. *)
Record impl : Type := mkImpl { trait : op; lhs : ty; rhs : ty; out : nom; body : exp }.

(** macros.rs:16-39, 53-76, 90-113: one pattern for + - *. *)
Definition variants (o : op) (l r t : nom) : list impl :=
  [mkImpl o (Own l) (Bor r) t (Bin o (Ref self) other);
   mkImpl o (Bor l) (Own r) t (Bin o self (Ref other));
   mkImpl o (Own l) (Own r) t (Bin o (Ref self) (Ref other))].
(** macros.rs:42-50, 79-87, 116-124. *)
Definition assign_variants (o : op) (l r : nom) : list impl :=
  [mkImpl o (Own l) (Own r) l (Bin o (Deref self) (Ref other))].

(** curve/edwards/extended.rs:308-348 and 386-414 (without Sum, below). *)
Definition edwards_impls : list impl :=
  [mkImpl Add (Bor EdT) (Bor EdT) EdT (Call2 m_add self other)] ++
  variants Add EdT EdT EdT ++
  [mkImpl AddAssign (Own EdT) (Bor EdT) EdT (Bin Add self other)] ++
  assign_variants AddAssign EdT EdT ++
  [mkImpl Sub (Bor EdT) (Bor EdT) EdT (Call2 m_add self (Ref (Call m_negate other)))] ++
  variants Sub EdT EdT EdT ++
  [mkImpl SubAssign (Own EdT) (Bor EdT) EdT (Bin Sub self other)] ++
  assign_variants SubAssign EdT EdT ++
  [mkImpl MulAssign (Own EdT) (Bor ScT) EdT (Bin Mul self other)] ++
  assign_variants MulAssign EdT ScT ++
  variants Mul EdT ScT EdT ++
  variants Mul ScT EdT EdT ++
  [mkImpl Mul (Bor EdT) (Bor ScT) EdT (Call2 m_scalar_mul self other);
   mkImpl Mul (Bor ScT) (Bor EdT) EdT (Bin Mul other self)].
(** field/scalar.rs:60-78. *)
Definition scalar_impls : list impl :=
  [mkImpl Add (Own ScT) (Own ScT) ScT (Do2 ScAddition (Ref self) (Ref other));
   mkImpl Mul (Own ScT) (Own ScT) ScT (Do2 ScMultiply (Ref self) (Ref other));
   mkImpl Sub (Own ScT) (Own ScT) ScT (Do2 ScSubtraction (Ref self) (Ref other))].
(** decaf/ops.rs:8-63. *)
Definition decaf_impls : list impl :=
  [mkImpl Mul (Bor DcT) (Bor ScT) DcT (Do2 DcDoubleAndAdd self other);
   mkImpl Mul (Bor ScT) (Bor DcT) DcT (Do2 DcDoubleAndAdd other self);
   mkImpl Mul (Own ScT) (Own DcT) DcT (Do2 DcDoubleAndAdd (Ref other) (Ref self));
   mkImpl Mul (Own DcT) (Own ScT) DcT (Do2 DcDoubleAndAdd (Ref self) (Ref other));
   mkImpl Add (Bor DcT) (Bor DcT) DcT (Do2 DcAddition self other);
   mkImpl Add (Own DcT) (Own DcT) DcT (Call2 m_add (Ref self) (Ref other));
   mkImpl Sub (Bor DcT) (Bor DcT) DcT (Do2 DcSubtraction self other);
   mkImpl Sub (Own DcT) (Own DcT) DcT (Call2 m_sub (Ref self) (Ref other))].
(** curve/montgomery/montgomery.rs:72-104. *)
Definition montgomery_impls : list impl :=
  [mkImpl Mul (Bor MtT) (Bor ScT) MtT (Do2 MtLadder self other);
   mkImpl Mul (Bor ScT) (Bor MtT) MtT (Bin Mul other self)].
Definition impls : list impl := edwards_impls ++ scalar_impls ++ decaf_impls ++ montgomery_impls.

(** [impl Neg]: extended.rs:366-380, decaf/ops.rs:66-77. *)
Record neg_impl : Type := mkNeg { neg_of : ty; neg_out : nom; neg_body : exp }.
Definition neg_impls : list neg_impl :=
  [mkNeg (Bor EdT) EdT (Call m_negate self);
   mkNeg (Own EdT) EdT (Neg (Ref self));
   mkNeg (Bor DcT) DcT (Do1 DcNegate self);
   mkNeg (Own DcT) DcT (Call m_neg (Ref self))].

(** Methods of the types themselves, all taking [&self] (and a reference): extended.rs:122, 180, 272, decaf.rs:57. *)
Record method1 : Type := mkMeth1 { name1 : meth; of1 : nom; out1 : nom; body1 : exp }.
Record method2 : Type := mkMeth2 { name2 : meth; of2 : nom; arg2 : nom; out2 : nom; body2 : exp }.
Definition methods1 : list method1 := [mkMeth1 m_negate EdT EdT (Do1 EdNegate self)].
Definition methods2 : list method2 :=
  [mkMeth2 m_scalar_mul EdT ScT EdT (Do2 EdScalarMul self other);
   mkMeth2 m_add EdT EdT EdT (Do2 EdAddition self other);
   mkMeth2 m_sub DcT DcT DcT (Do2 DcSubtraction self other)].

(** ** Which implementation *)
Definition find_impl (o : op) (l r : ty) : option impl :=
  find (fun i => op_eqb (trait i) o && ty_eqb (lhs i) l && ty_eqb (rhs i) r) impls.
Definition find_neg (t : ty) : option neg_impl := find (fun i => ty_eqb (neg_of i) t) neg_impls.
(** The receiver types that are tried, in order: as it is, borrowed, dereferenced. *)
Definition receivers (t : ty) : list ty := match t with Own n => [Own n; Bor n] | Bor n => [Bor n; Own n] end.
(** The trait with a method of this name. *)
Definition trait_of (m : meth) : option op := match m with m_add => Some Add | m_sub => Some Sub | _ => None end.

Inductive found2 : Type := Inherent2 (i : method2) | ByTrait2 (o : op) (t : ty).
Inductive found1 : Type := Inherent1 (i : method1) | ByTrait1 (t : ty).
Definition try2 (m : meth) (t : ty) : option found2 :=
  match find (fun i => meth_eqb (name2 i) m && ty_eqb (Bor (of2 i)) t) methods2 with
  | Some i => Some (Inherent2 i)
  | None =>
      match trait_of m with
      | Some o => if existsb (fun i => op_eqb (trait i) o && ty_eqb (lhs i) t) impls then Some (ByTrait2 o t) else None
      | None => None
      end
  end.
Definition try1 (m : meth) (t : ty) : option found1 :=
  match find (fun i => meth_eqb (name1 i) m && ty_eqb (Bor (of1 i)) t) methods1 with
  | Some i => Some (Inherent1 i)
  | None => if meth_eqb m m_neg then match find_neg t with Some _ => Some (ByTrait1 t) | None => None end else None
  end.
Fixpoint first {A} (f : ty -> option A) (l : list ty) : option A :=
  match l with [] => None | t :: l' => match f t with Some x => Some x | None => first f l' end end.
Definition find_method2 (m : meth) (t : ty) : option found2 := first (try2 m) (receivers t).
Definition find_method1 (m : meth) (t : ty) : option found1 := first (try1 m) (receivers t).

(** ** Types of expressions; [None]: does not compile *)
Definition code1_out (c : code1) : nom := match c with EdNegate => EdT | DcNegate => DcT end.
Definition code2_out (c : code2) : nom :=
  match c with
  | EdAddition | EdScalarMul => EdT | ScAddition | ScSubtraction | ScMultiply => ScT
  | DcAddition | DcSubtraction | DcDoubleAndAdd => DcT | MtLadder => MtT
  end.
Definition code1_in (c : code1) : nom := code1_out c.
Definition code2_in (c : code2) : nom * nom :=
  match c with
  | EdAddition => (EdT, EdT) | EdScalarMul => (EdT, ScT) | ScAddition | ScSubtraction | ScMultiply => (ScT, ScT)
  | DcAddition | DcSubtraction => (DcT, DcT) | DcDoubleAndAdd => (DcT, ScT) | MtLadder => (MtT, ScT)
  end.
Fixpoint typeof (G : list ty) (e : exp) : option ty :=
  match e with
  | Var i => nth_error G i
  | Ref a => match typeof G a with Some (Own t) => Some (Bor t) | _ => None end
  | Deref a => match typeof G a with Some (Bor t) => Some (Own t) | _ => None end
  | Bin o a b =>
      match typeof G a, typeof G b with
      | Some l, Some r => match find_impl o l r with Some i => Some (Own (out i)) | None => None end
      | _, _ => None
      end
  | Neg a => match typeof G a with Some t => match find_neg t with Some i => Some (Own (neg_out i)) | None => None end | None => None end
  | Call m a =>
      match typeof G a with
      | Some t =>
          match find_method1 m t with
          | Some (Inherent1 i) => Some (Own (out1 i))
          | Some (ByTrait1 t') => match find_neg t' with Some i => Some (Own (neg_out i)) | None => None end
          | None => None
          end
      | None => None
      end
  | Call2 m a b =>
      match typeof G a, typeof G b with
      | Some t, Some r =>
          match find_method2 m t with
          | Some (Inherent2 i) => if ty_eqb r (Bor (arg2 i)) then Some (Own (out2 i)) else None
          | Some (ByTrait2 o t') => match find_impl o t' r with Some i => Some (Own (out i)) | None => None end
          | None => None
          end
      | _, _ => None
      end
  | Do1 c a => match typeof G a with Some t => if ty_eqb t (Bor (code1_in c)) then Some (Own (code1_out c)) else None | None => None end
  | Do2 c a b =>
      match typeof G a, typeof G b with
      | Some l, Some r =>
          if ty_eqb l (Bor (fst (code2_in c))) && ty_eqb r (Bor (snd (code2_in c))) then Some (Own (code2_out c)) else None
      | _, _ => None
      end
  end.

(** ** Running *)
Section Run.
Variable B : backend.
Inductive operand : Type := VEd (P : EdPoint B) | VSc (s : list Z) | VDc (P : TwPoint B) | VMt (u : list Z).
Definition kind (v : operand) : nom := match v with VEd _ => EdT | VSc _ => ScT | VDc _ => DcT | VMt _ => MtT end.
Definition nom_of (t : ty) : nom := match t with Own n | Bor n => n end.

(** [Ran Panic]: a panic in the code reached.  [NoImpl]: does not compile.  [OutOfFuel]: still forwarding after so many steps. *)
Inductive outcome : Type := Ran (r : res operand) | NoImpl | OutOfFuel.
Definition map_ok {A} (f : A -> operand) (x : res A) : outcome := Ran (match x with Ok a => Ok (f a) | Panic => Panic end).
Definition run1 (c : code1) (a : operand) : outcome :=
  match c, a with
  | EdNegate, VEd P => map_ok VEd (ed_negate B P)
  | DcNegate, VDc P => map_ok VDc (dc_neg B P)
  | _, _ => NoImpl
  end.
Definition run2 (c : code2) (a b : operand) : outcome :=
  match c, a, b with
  | EdAddition, VEd P, VEd Q => map_ok VEd (ed_add B P Q)
  | EdScalarMul, VEd P, VSc s => map_ok VEd (ed_scalar_mul B P s)
  | ScAddition, VSc s, VSc t => map_ok VSc (scalar_add s t)
  | ScSubtraction, VSc s, VSc t => map_ok VSc (scalar_sub s t)
  | ScMultiply, VSc s, VSc t => map_ok VSc (scalar_mul s t)
  | DcAddition, VDc P, VDc Q => map_ok VDc (dc_add B P Q)
  | DcSubtraction, VDc P, VDc Q => map_ok VDc (dc_sub B P Q)
  | DcDoubleAndAdd, VDc P, VSc s => map_ok VDc (dc_mul B P s)
  | MtLadder, VMt u, VSc s => map_ok VMt (mp_mul B u s)
  | _, _, _ => NoImpl
  end.
Definition then_ (x : outcome) (f : operand -> outcome) : outcome :=
  match x with Ran (Ok v) => f v | Ran Panic => Ran Panic | NoImpl => NoImpl | OutOfFuel => OutOfFuel end.

(** Operands left to right, then the body of the implementation; every call uses up one unit of fuel. *)
Fixpoint exec (fuel : nat) (G : list ty) (env : list operand) (e : exp) : outcome :=
  match fuel with
  | O => OutOfFuel
  | S n =>
      match e with
      | Var i => match nth_error env i with Some v => Ran (Ok v) | None => NoImpl end
      | Ref a | Deref a => exec n G env a
      | Bin o a b =>
          match typeof G a, typeof G b with
          | Some l, Some r =>
              match find_impl o l r with
              | Some i =>
                  then_ (exec n G env a) (fun x => then_ (exec n G env b) (fun y =>
                    exec n [(if assigns o then Bor (nom_of (lhs i)) else lhs i); rhs i] [x; y] (body i)))
              | None => NoImpl
              end
          | _, _ => NoImpl
          end
      | Neg a =>
          match typeof G a with
          | Some t => match find_neg t with Some i => then_ (exec n G env a) (fun x => exec n [neg_of i] [x] (neg_body i)) | None => NoImpl end
          | None => NoImpl
          end
      | Call m a =>
          match typeof G a with
          | Some t =>
              match find_method1 m t with
              | Some (Inherent1 i) => then_ (exec n G env a) (fun x => exec n [Bor (of1 i)] [x] (body1 i))
              | Some (ByTrait1 t') => match find_neg t' with Some i => then_ (exec n G env a) (fun x => exec n [neg_of i] [x] (neg_body i)) | None => NoImpl end
              | None => NoImpl
              end
          | None => NoImpl
          end
      | Call2 m a b =>
          match typeof G a, typeof G b with
          | Some t, Some r =>
              match find_method2 m t with
              | Some (Inherent2 i) =>
                  then_ (exec n G env a) (fun x => then_ (exec n G env b) (fun y => exec n [Bor (of2 i); Bor (arg2 i)] [x; y] (body2 i)))
              | Some (ByTrait2 o t') =>
                  match find_impl o t' r with
                  | Some i => then_ (exec n G env a) (fun x => then_ (exec n G env b) (fun y => exec n [lhs i; rhs i] [x; y] (body i)))
                  | None => NoImpl
                  end
              | None => NoImpl
              end
          | _, _ => NoImpl
          end
      | Do1 c a => then_ (exec n G env a) (run1 c)
      | Do2 c a b => then_ (exec n G env a) (fun x => then_ (exec n G env b) (run2 c x))
      end
  end.

(** extended.rs:350-361, [Sum]: [iter.fold(identity(), |acc, item| acc + item.borrow())]. *)
Definition sum_step (fuel : nat) (acc item : operand) : outcome := exec fuel [Own EdT; Bor EdT] [acc; item] (Bin Add self other).
Fixpoint sum_fold (fuel : nat) (acc : operand) (items : list operand) : outcome :=
  match items with [] => Ran (Ok acc) | x :: l => then_ (sum_step fuel acc x) (fun a => sum_fold fuel a l) end.
Definition sum_value (fuel : nat) (items : list operand) : outcome := sum_fold fuel (VEd (ed_identity B)) items.
End Run.
Arguments VEd {B}. Arguments VSc {B}. Arguments VDc {B}. Arguments VMt {B}. Arguments kind {B}. Arguments Ran {B}. Arguments NoImpl {B}. Arguments OutOfFuel {B}.
