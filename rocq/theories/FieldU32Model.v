(** Model of the 32-bit field backend: src/field/u32/prime_field.rs and src/field/u32/karatsuba.rs.

    A FieldElement28 is a list of 16 limbs (each a u32).  Functions match on a list of exactly 16 limbs; other
    lengths cannot occur in Rust ([[u32; 16]]) and are sent to [Panic].  Array indices in the source are
    constants (or loop counters with constant bounds) inside the arrays. *)
Require Import ZArith List Bool.
From Verif Require Import Base.
Import ListNotations.
Open Scope Z_scope.
Open Scope res_scope.

Definition fe28 : Type := list Z.
Definition mask28 : Z := 2 ^ 28 - 1.

(** How limbs are read and which bound they keep (not Rust code; the bound is proved to be an invariant). *)
Definition val28 (a : fe28) : Z := eval 28 a.
Definition limb_bound : Z := 2 ^ 28 + 2 ^ 9.
Definition wf28 (a : fe28) : Prop := length a = 16%nat /\ Forall (fun x => 0 <= x < limb_bound) a.

(** ** Constants: prime_field.rs:105-116. *)
Definition zero28 : fe28 := [0; 0; 0; 0; 0; 0; 0; 0; 0; 0; 0; 0; 0; 0; 0; 0].
Definition one28 : fe28 := [1; 0; 0; 0; 0; 0; 0; 0; 0; 0; 0; 0; 0; 0; 0; 0].
Definition minus_one28 : fe28 :=
  [268435454; 268435455; 268435455; 268435455; 268435455; 268435455; 268435455; 268435455;
   268435454; 268435455; 268435455; 268435455; 268435455; 268435455; 268435455; 268435455].

(** ** Carries: prime_field.rs:226-249.  The source updates [self] in place from limb 15 down to limb 1, so every
    right-hand side reads the old neighbour (limb 8 already incremented). *)
Definition weak_reduce28 (a : fe28) : res fe28 :=
  match a with
  | [a0; a1; a2; a3; a4; a5; a6; a7; a8; a9; a10; a11; a12; a13; a14; a15] =>
      let limb16_mod := shr a15 28 in
      a8 <- u32_add a8 limb16_mod ;;
      c15 <- u32_add (Z.land a15 mask28) (shr a14 28) ;;
      c14 <- u32_add (Z.land a14 mask28) (shr a13 28) ;;
      c13 <- u32_add (Z.land a13 mask28) (shr a12 28) ;;
      c12 <- u32_add (Z.land a12 mask28) (shr a11 28) ;;
      c11 <- u32_add (Z.land a11 mask28) (shr a10 28) ;;
      c10 <- u32_add (Z.land a10 mask28) (shr a9 28) ;;
      c9 <- u32_add (Z.land a9 mask28) (shr a8 28) ;;
      c8 <- u32_add (Z.land a8 mask28) (shr a7 28) ;;
      c7 <- u32_add (Z.land a7 mask28) (shr a6 28) ;;
      c6 <- u32_add (Z.land a6 mask28) (shr a5 28) ;;
      c5 <- u32_add (Z.land a5 mask28) (shr a4 28) ;;
      c4 <- u32_add (Z.land a4 mask28) (shr a3 28) ;;
      c3 <- u32_add (Z.land a3 mask28) (shr a2 28) ;;
      c2 <- u32_add (Z.land a2 mask28) (shr a1 28) ;;
      c1 <- u32_add (Z.land a1 mask28) (shr a0 28) ;;
      c0 <- u32_add (Z.land a0 mask28) limb16_mod ;;
      Ok [c0; c1; c2; c3; c4; c5; c6; c7; c8; c9; c10; c11; c12; c13; c14; c15]
  | _ => Panic
  end.

(** ** Addition: prime_field.rs:42-49 and 395-414. *)
Fixpoint add_limbs (a b : list Z) : res (list Z) :=
  match a, b with
  | [], [] => Ok []
  | x :: a', y :: b' => c <- u32_add x y ;; r <- add_limbs a' b' ;; Ok (c :: r)
  | _, _ => Panic
  end.
Definition add28 (a b : fe28) : res fe28 := inter_res <- add_limbs a b ;; weak_reduce28 inter_res.

(** ** Subtraction: prime_field.rs:50-58, bias 197-224, sub_no_reduce 418-437. *)
Definition bias28 (a : fe28) (b : Z) : res fe28 :=
  match a with
  | [a0; a1; a2; a3; a4; a5; a6; a7; a8; a9; a10; a11; a12; a13; a14; a15] =>
      co1 <- u32_mul b mask28 ;;
      co2 <- u32_sub co1 b ;;
      Ok [wrap 32 (a0 + co1); wrap 32 (a1 + co1); wrap 32 (a2 + co1); wrap 32 (a3 + co1);
          wrap 32 (a4 + co1); wrap 32 (a5 + co1); wrap 32 (a6 + co1); wrap 32 (a7 + co1);
          wrap 32 (a8 + co2); wrap 32 (a9 + co1); wrap 32 (a10 + co1); wrap 32 (a11 + co1);
          wrap 32 (a12 + co1); wrap 32 (a13 + co1); wrap 32 (a14 + co1); wrap 32 (a15 + co1)]
  | _ => Panic
  end.
Fixpoint sub_limbs (a b : list Z) : res (list Z) :=
  match a, b with
  | [], [] => Ok []
  | x :: a', y :: b' => r <- sub_limbs a' b' ;; Ok (wrap 32 (x - y) :: r)
  | _, _ => Panic
  end.
Definition sub28 (a b : fe28) : res fe28 :=
  a' <- bias28 a 2 ;; inter_res <- sub_limbs a' b ;; weak_reduce28 inter_res.

(** prime_field.rs:192-194. *)
Definition negate28 (a : fe28) : res fe28 := sub28 zero28 a.

(** ** Strong reduction: prime_field.rs:254-391.  The sixteen unrolled copies of the three-line borrow step
    (274-322) and of the carry step (337-386) are written as recursions over the limbs. *)
Definition p_limbs : list Z :=
  [0xfffffff; 0xfffffff; 0xfffffff; 0xfffffff; 0xfffffff; 0xfffffff; 0xfffffff; 0xfffffff;
   0xffffffe; 0xfffffff; 0xfffffff; 0xfffffff; 0xfffffff; 0xfffffff; 0xfffffff; 0xfffffff].
Fixpoint borrow_chain (limbs consts : list Z) (scarry : Z) : res (list Z * Z) :=
  match limbs, consts with
  | [], [] => Ok ([], scarry)
  | x :: limbs', k :: consts' =>
      t <- i64_sub x k ;;
      scarry <- i64_add scarry t ;;
      let y := Z.land (as_u32 scarry) mask28 in
      ' (r, s) <- borrow_chain limbs' consts' (shr scarry 28) ;;
      Ok (y :: r, s)
  | _, _ => Panic
  end.
Fixpoint carry_chain (limbs adds : list Z) (carry : Z) : res (list Z * Z) :=
  match limbs, adds with
  | [], [] => Ok ([], carry)
  | x :: limbs', m :: adds' =>
      t <- u64_add x m ;;
      carry <- u64_add carry t ;;
      let y := Z.land (as_u32 carry) mask28 in
      ' (r, s) <- carry_chain limbs' adds' (shr carry 28) ;;
      Ok (y :: r, s)
  | _, _ => Panic
  end.
Definition strong_reduce28 (a : fe28) : res fe28 :=
  a <- weak_reduce28 a ;;
  ' (a, scarry) <- borrow_chain a p_limbs 0 ;;
  let scarry_mask := Z.land (as_u32 scarry) mask28 in
  let m := scarry_mask in
  let m' := Z.land m 0xfffffffffffffffe in
  ' (a, carry) <- carry_chain a [m; m; m; m; m; m; m; m; m'; m; m; m; m; m; m; m] 0 ;;
  if negb (carry <? 2) then Panic else
  t <- i64_add carry scarry ;;
  if negb (t =? 0) then Panic else
  Ok a.

(** ** Serialisation: prime_field.rs:141-182. *)
Definition load7 (input : list Z) : res Z :=
  match input with
  | i0 :: i1 :: i2 :: i3 :: i4 :: i5 :: i6 :: _ =>
      Ok (Z.lor (Z.lor (Z.lor (Z.lor (Z.lor (Z.lor i0 (shl_u 64 i1 8)) (shl_u 64 i2 16)) (shl_u 64 i3 24))
            (shl_u 64 i4 32)) (shl_u 64 i5 40)) (shl_u 64 i6 48))
  | _ => Panic
  end.
Fixpoint from_bytes_loop (n : nat) (b : list Z) : res (list Z) :=
  match n with
  | O => Ok []
  | S n' =>
      out <- load7 b ;;
      r <- from_bytes_loop n' (skipn 7 b) ;;
      Ok (Z.land (as_u32 out) mask28 :: as_u32 (shr out 28) :: r)
  end.
Definition from_bytes28 (b : list Z) : res fe28 := from_bytes_loop 8 b.

Fixpoint push_bytes (n : nat) (l : Z) : list Z :=
  match n with O => [] | S n' => as_u8 l :: push_bytes n' (shr l 8) end.
Fixpoint to_bytes_loop (limbs : list Z) : res (list Z) :=
  match limbs with
  | [] => Ok []
  | x :: y :: limbs' =>
      l <- u64_add x (shl_u 64 y 28) ;;
      r <- to_bytes_loop limbs' ;;
      Ok (push_bytes 7 l ++ r)
  | _ => Panic
  end.
Definition to_bytes28 (a : fe28) : res (list Z) := limbs <- strong_reduce28 a ;; to_bytes_loop limbs.

(** prime_field.rs:123-126. *)
Definition is_negative28 (a : fe28) : res bool :=
  bytes <- to_bytes28 a ;; Ok (Z.land (nth 0 bytes 0) 1 =? 1).

(** ** Selection: prime_field.rs:60-92.  [Choice] is a boolean; selecting limb by limb. *)
Fixpoint select_limbs (a b : list Z) (choice : bool) : list Z :=
  match a, b with
  | x :: a', y :: b' => (if choice then y else x) :: select_limbs a' b' choice
  | _, _ => []
  end.
Definition conditional_select28 (a b : fe28) (choice : bool) : fe28 := select_limbs a b choice.
Definition conditional_negate28 (a : fe28) (choice : bool) : res fe28 :=
  self_neg <- negate28 a ;; Ok (conditional_select28 a self_neg choice).

(** ** Multiplication: karatsuba.rs.  Checked i128 arithmetic on sub-expressions that may panic. *)
Definition lift2 (f : Z -> Z -> res Z) (x y : res Z) : res Z := a <- x ;; b <- y ;; f a b.
Notation "x +! y" := (lift2 i128_add x y) (at level 50, left associativity).
Notation "x -! y" := (lift2 i128_sub x y) (at level 50, left associativity).
Notation "$ x" := (Ok x) (at level 9, x at level 9, format "$ x").
(** karatsuba.rs:42. *)
Definition m (a b : Z) : res Z := i128_mul a b.

(** karatsuba.rs:17-284. *)
Definition mul28 (a b : fe28) : res fe28 :=
  match a, b with
  | [a0; a1; a2; a3; a4; a5; a6; a7; a8; a9; a10; a11; a12; a13; a14; a15],
    [b0; b1; b2; b3; b4; b5; b6; b7; b8; b9; b10; b11; b12; b13; b14; b15] =>
      let aa0 := wrap 32 (a0 + a8) in let aa1 := wrap 32 (a1 + a9) in
      let aa2 := wrap 32 (a2 + a10) in let aa3 := wrap 32 (a3 + a11) in
      let aa4 := wrap 32 (a4 + a12) in let aa5 := wrap 32 (a5 + a13) in
      let aa6 := wrap 32 (a6 + a14) in let aa7 := wrap 32 (a7 + a15) in
      let bb0 := wrap 32 (b0 + b8) in let bb1 := wrap 32 (b1 + b9) in
      let bb2 := wrap 32 (b2 + b10) in let bb3 := wrap 32 (b3 + b11) in
      let bb4 := wrap 32 (b4 + b12) in let bb5 := wrap 32 (b5 + b13) in
      let bb6 := wrap 32 (b6 + b14) in let bb7 := wrap 32 (b7 + b15) in
      let z0 := 0 in
      z2 <- m a0 b0 ;;
      z1 <- m aa0 bb0 -! $z2 ;;
      z0 <- $z0 +! (m a8 b8 +! $z2) ;;
      z2 <- m aa7 bb1 +! m aa6 bb2 +! m aa5 bb3 +! m aa4 bb4 +! m aa3 bb5 +! m aa2 bb6 +! m aa1 bb7 ;;
      z1 <- $z1 +! (m a15 b9 +! m a14 b10 +! m a13 b11 +! m a12 b12 +! m a11 b13 +! m a10 b14 +! m a9 b15 +!
          $z2) ;;
      z0 <- $z0 -! (m a7 b1 +! m a6 b2 +! m a5 b3 +! m a4 b4 +! m a3 b5 +! m a2 b6 +! m a1 b7 -! $z2) ;;
      let c0 := as_u32 (Z.land z0 mask28) in
      let c8 := as_u32 (Z.land z1 mask28) in
      let z0 := shr z0 28 in
      let z1 := shr z1 28 in
      z2 <- m a1 b0 +! m a0 b1 ;;
      z1 <- $z1 +! (m aa1 bb0 +! m aa0 bb1 -! $z2) ;;
      z0 <- $z0 +! (m a9 b8 +! m a8 b9 +! $z2) ;;
      z2 <- m aa7 bb2 +! m aa6 bb3 +! m aa5 bb4 +! m aa4 bb5 +! m aa3 bb6 +! m aa2 bb7 ;;
      z1 <- $z1 +! (m a15 b10 +! m a14 b11 +! m a13 b12 +! m a12 b13 +! m a11 b14 +! m a10 b15 +! $z2) ;;
      z0 <- $z0 -! (m a7 b2 +! m a6 b3 +! m a5 b4 +! m a4 b5 +! m a3 b6 +! m a2 b7 -! $z2) ;;
      let c1 := as_u32 (Z.land z0 mask28) in
      let c9 := as_u32 (Z.land z1 mask28) in
      let z0 := shr z0 28 in
      let z1 := shr z1 28 in
      z2 <- m a2 b0 +! m a1 b1 +! m a0 b2 ;;
      z1 <- $z1 +! (m aa0 bb2 +! m aa1 bb1 +! m aa2 bb0 -! $z2) ;;
      z0 <- $z0 +! (m a10 b8 +! m a9 b9 +! m a8 b10 +! $z2) ;;
      z2 <- m aa7 bb3 +! m aa6 bb4 +! m aa5 bb5 +! m aa4 bb6 +! m aa3 bb7 ;;
      z1 <- $z1 +! (m a15 b11 +! m a14 b12 +! m a13 b13 +! m a12 b14 +! m a11 b15 +! $z2) ;;
      z0 <- $z0 -! (m a7 b3 +! m a6 b4 +! m a5 b5 +! m a4 b6 +! m a3 b7 -! $z2) ;;
      let c2 := as_u32 (Z.land z0 mask28) in
      let c10 := as_u32 (Z.land z1 mask28) in
      let z0 := shr z0 28 in
      let z1 := shr z1 28 in
      z2 <- m a3 b0 +! m a2 b1 +! m a1 b2 +! m a0 b3 ;;
      z1 <- $z1 +! (m aa3 bb0 +! m aa2 bb1 +! m aa1 bb2 +! m aa0 bb3 -! $z2) ;;
      z0 <- $z0 +! (m a11 b8 +! m a10 b9 +! m a9 b10 +! m a8 b11 +! $z2) ;;
      z2 <- m aa7 bb4 +! m aa6 bb5 +! m aa5 bb6 +! m aa4 bb7 ;;
      z0 <- $z0 -! (m a7 b4 +! m a6 b5 +! m a5 b6 +! m a4 b7 -! $z2) ;;
      z1 <- $z1 +! (m a15 b12 +! m a14 b13 +! m a13 b14 +! m a12 b15 +! $z2) ;;
      let c3 := as_u32 (Z.land z0 mask28) in
      let c11 := as_u32 (Z.land z1 mask28) in
      let z0 := shr z0 28 in
      let z1 := shr z1 28 in
      z2 <- m a4 b0 +! m a3 b1 +! m a2 b2 +! m a1 b3 +! m a0 b4 ;;
      z1 <- $z1 +! (m aa4 bb0 +! m aa3 bb1 +! m aa2 bb2 +! m aa1 bb3 +! m aa0 bb4 -! $z2) ;;
      z0 <- $z0 +! (m a12 b8 +! m a11 b9 +! m a10 b10 +! m a9 b11 +! m a8 b12 +! $z2) ;;
      z2 <- m aa7 bb5 +! m aa6 bb6 +! m aa5 bb7 ;;
      z1 <- $z1 +! (m a15 b13 +! m a14 b14 +! m a13 b15 +! $z2) ;;
      z0 <- $z0 -! (m a7 b5 +! m a6 b6 +! m a5 b7 -! $z2) ;;
      let c4 := as_u32 (Z.land z0 mask28) in
      let c12 := as_u32 (Z.land z1 mask28) in
      let z0 := shr z0 28 in
      let z1 := shr z1 28 in
      z2 <- m a5 b0 +! m a4 b1 +! m a3 b2 +! m a2 b3 +! m a1 b4 +! m a0 b5 ;;
      z1 <- $z1 +! (m aa5 bb0 +! m aa4 bb1 +! m aa3 bb2 +! m aa2 bb3 +! m aa1 bb4 +! m aa0 bb5 -! $z2) ;;
      z0 <- $z0 +! (m a13 b8 +! m a12 b9 +! m a11 b10 +! m a10 b11 +! m a9 b12 +! m a8 b13 +! $z2) ;;
      z2 <- m aa7 bb6 +! m aa6 bb7 ;;
      z1 <- $z1 +! (m a15 b14 +! m a14 b15 +! $z2) ;;
      z0 <- $z0 -! (m a7 b6 +! m a6 b7 -! $z2) ;;
      let c5 := as_u32 (Z.land z0 mask28) in
      let c13 := as_u32 (Z.land z1 mask28) in
      let z0 := shr z0 28 in
      let z1 := shr z1 28 in
      z2 <- m a6 b0 +! m a5 b1 +! m a4 b2 +! m a3 b3 +! m a2 b4 +! m a1 b5 +! m a0 b6 ;;
      z1 <- $z1 +! (m aa6 bb0 +! m aa5 bb1 +! m aa4 bb2 +! m aa3 bb3 +! m aa2 bb4 +! m aa1 bb5 +! m aa0 bb6 -!
          $z2) ;;
      z0 <- $z0 +! (m a14 b8 +! m a13 b9 +! m a12 b10 +! m a11 b11 +! m a10 b12 +! m a9 b13 +! m a8 b14 +!
          $z2) ;;
      z2 <- m aa7 bb7 ;;
      z1 <- $z1 +! (m a15 b15 +! $z2) ;;
      z0 <- $z0 -! (m a7 b7 -! $z2) ;;
      let c6 := as_u32 (Z.land z0 mask28) in
      let c14 := as_u32 (Z.land z1 mask28) in
      let z0 := shr z0 28 in
      let z1 := shr z1 28 in
      z2 <- m a7 b0 +! m a6 b1 +! m a5 b2 +! m a4 b3 +! m a3 b4 +! m a2 b5 +! m a1 b6 +! m a0 b7 ;;
      z1 <- $z1 +! (m aa7 bb0 +! m aa6 bb1 +! m aa5 bb2 +! m aa4 bb3 +! m aa3 bb4 +! m aa2 bb5 +! m aa1 bb6 +!
          m aa0 bb7 -! $z2) ;;
      z0 <- $z0 +! (m a15 b8 +! m a14 b9 +! m a13 b10 +! m a12 b11 +! m a11 b12 +! m a10 b13 +! m a9 b14 +! m
          a8 b15 +! $z2) ;;
      z2 <- $0 ;;
      z1 <- $z1 +! $z2 ;;
      z0 <- $z0 +! $z2 ;;
      let c7 := as_u32 (Z.land z0 mask28) in
      let c15 := as_u32 (Z.land z1 mask28) in
      let z0 := shr z0 28 in
      let z1 := shr z1 28 in
      z0 <- $z0 +! ($z1 +! $c8) ;;
      z1 <- $z1 +! $c0 ;;
      let c8 := as_u32 (Z.land z0 mask28) in
      let c0 := as_u32 (Z.land z1 mask28) in
      let z0 := shr z0 28 in
      let z1 := shr z1 28 in
      c9 <- u32_add c9 (as_u32 (Z.land z0 mask28)) ;;
      c1 <- u32_add c1 (as_u32 (Z.land z1 mask28)) ;;
      Ok [c0; c1; c2; c3; c4; c5; c6; c7; c8; c9; c10; c11; c12; c13; c14; c15]
  | _, _ => Panic
  end.

(** karatsuba.rs:287-394.  u64 accumulators with wrapping arithmetic; [for] loops are folds over the index range. *)
Definition wadd (x y : Z) : Z := wrap 64 (x + y).
Definition wsub (x y : Z) : Z := wrap 64 (x - y).
Definition wmul (x y : Z) : Z := wrap 64 (x * y).
Definition widemul (a b : Z) : res Z := u64_mul a b.

Fixpoint for_each {S : Type} (l : list nat) (f : nat -> S -> res S) (s : S) : res S :=
  match l with
  | [] => Ok s
  | i :: l' => s' <- f i s ;; for_each l' f s'
  end.
Fixpoint map_res {A B : Type} (f : A -> res B) (l : list A) : res (list B) :=
  match l with
  | [] => Ok []
  | x :: l' => y <- f x ;; r <- map_res f l' ;; Ok (y :: r)
  end.
Definition set_nth (i : nat) (v : Z) (l : list Z) : list Z := firstn i l ++ v :: skipn (S i) l.
(** The range [lo..hi]. *)
Definition range (lo hi : nat) : list nat := seq lo (hi - lo).

Section Square.
  Variable a : fe28.
  Notation "a [ i ]" := (nth i a 0) (at level 9, i at level 200, format "a [ i ]").

  (** Lines 300-324. *)
  Definition square_j0 (aa : list Z) (c : fe28) : res (Z * Z * fe28) :=
    let accum0 := 0 in let accum1 := 0 in
    t <- widemul (a[0]) (a[0]) ;;
    let accum2 := wadd 0 t in
    let accum1 := wadd accum1 (wmul (aa[0]) (aa[0])) in
    t <- widemul (a[8]) (a[8]) ;;
    let accum0 := wadd accum0 t in
    let accum1 := wsub accum1 accum2 in
    let accum0 := wadd accum0 accum2 in
    ' (accum0, accum1, accum2) <-
      for_each (range 1 4) (fun i '(accum0, accum1, accum2) =>
        let accum2 := wadd accum2 (shl_u 64 (wmul (aa[i]) (aa[8 - i])) 1) in
        t <- widemul (a[8 + i]) (a[16 - i]) ;;
        let accum1 := wadd accum1 (shl_u 64 t 1) in
        t <- widemul (a[i]) (a[8 - i]) ;;
        let accum0 := wsub accum0 (shl_u 64 t 1) in
        Ok (accum0, accum1, accum2)) (accum0, accum1, 0) ;;
    let accum2 := wadd accum2 (wmul (aa[4]) (aa[4])) in
    t <- widemul (a[12]) (a[12]) ;;
    let accum1 := wadd (wadd accum1 t) accum2 in
    t <- widemul (a[4]) (a[4]) ;;
    let accum0 := wadd (wsub accum0 t) accum2 in
    let c := set_nth 0 (Z.land (as_u32 accum0) mask28) c in
    let c := set_nth 8 (Z.land (as_u32 accum1) mask28) c in
    Ok (shr accum0 28, shr accum1 28, c).

  (** The body of the loop, lines 327-364. *)
  Definition square_j (aa : list Z) (j : nat) (st : Z * Z * fe28) : res (Z * Z * fe28) :=
    let '(accum0, accum1, c) := st in
    ' (accum0, accum1, accum2) <-
      for_each (range 0 (j / 2 + 1)) (fun i '(accum0, accum1, accum2) =>
        if negb (i =? j - i)%nat then
          t <- widemul (a[j - i]) (a[i]) ;;
          let accum2 := wadd accum2 (shl_u 64 t 1) in
          let accum1 := wadd accum1 (shl_u 64 (wmul (aa[j - i]) (aa[i])) 1) in
          t <- widemul (a[8 + (j - i)]) (a[8 + i]) ;;
          let accum0 := wadd accum0 (shl_u 64 t 1) in
          Ok (accum0, accum1, accum2)
        else
          t <- widemul (a[j / 2]) (a[j / 2]) ;;
          let accum2 := wadd accum2 t in
          let accum1 := wadd accum1 (wmul (aa[j / 2]) (aa[j / 2])) in
          t <- widemul (a[8 + j / 2]) (a[8 + j / 2]) ;;
          let accum0 := wadd accum0 t in
          Ok (accum0, accum1, accum2)) (accum0, accum1, 0) ;;
    let accum1 := wsub accum1 accum2 in
    let accum0 := wadd accum0 accum2 in
    ' (accum0, accum1, accum2) <-
      for_each (range 1 ((8 - j) / 2 + 1)) (fun i '(accum0, accum1, accum2) =>
        if negb (j + i =? 8 - i)%nat then
          let accum2 := wadd accum2 (shl_u 64 (wmul (aa[8 - i]) (aa[j + i])) 1) in
          t <- widemul (a[16 - i]) (a[8 + j + i]) ;;
          let accum1 := wadd accum1 (shl_u 64 t 1) in
          t <- widemul (a[8 - i]) (a[j + i]) ;;
          let accum0 := wsub accum0 (shl_u 64 t 1) in
          Ok (accum0, accum1, accum2)
        else
          let accum2 := wadd accum2 (wmul (aa[j + i]) (aa[j + i])) in
          t <- widemul (a[8 + j + i]) (a[8 + j + i]) ;;
          let accum1 := wadd accum1 t in
          t <- widemul (a[j + i]) (a[j + i]) ;;
          let accum0 := wsub accum0 t in
          Ok (accum0, accum1, accum2)) (accum0, accum1, 0) ;;
    let accum1 := wadd accum1 accum2 in
    let accum0 := wadd accum0 accum2 in
    let c := set_nth j (Z.land (as_u32 accum0) mask28) c in
    let c := set_nth (j + 8) (Z.land (as_u32 accum1) mask28) c in
    Ok (shr accum0 28, shr accum1 28, c).

  (** Lines 368-379. *)
  Definition square_j7 (aa : list Z) (st : Z * Z * fe28) : res (Z * Z * fe28) :=
    let '(accum0, accum1, c) := st in
    ' (accum0, accum1, accum2) <-
      for_each (range 0 4) (fun i '(accum0, accum1, accum2) =>
        t <- widemul (a[7 - i]) (a[i]) ;;
        let accum2 := wadd accum2 (shl_u 64 t 1) in
        let accum1 := wadd accum1 (shl_u 64 (wmul (aa[7 - i]) (aa[i])) 1) in
        t <- widemul (a[15 - i]) (a[8 + i]) ;;
        let accum0 := wadd accum0 (shl_u 64 t 1) in
        Ok (accum0, accum1, accum2)) (accum0, accum1, 0) ;;
    let accum1 := wsub accum1 accum2 in
    let accum0 := wadd accum0 accum2 in
    let c := set_nth 7 (Z.land (as_u32 accum0) mask28) c in
    let c := set_nth 15 (Z.land (as_u32 accum1) mask28) c in
    Ok (shr accum0 28, shr accum1 28, c).

  (** Lines 383-393. *)
  Definition square_final (st : Z * Z * fe28) : res fe28 :=
    let '(accum0, accum1, c) := st in
    accum0 <- u64_add accum0 accum1 ;;
    accum0 <- u64_add accum0 (c[8]) ;;
    accum1 <- u64_add accum1 (c[0]) ;;
    let c := set_nth 8 (Z.land (as_u32 accum0) mask28) c in
    let c := set_nth 0 (Z.land (as_u32 accum1) mask28) c in
    let accum0 := shr accum0 28 in
    let accum1 := shr accum1 28 in
    c9 <- u32_add (c[9]) (as_u32 accum0) ;;
    let c := set_nth 9 c9 c in
    c1 <- u32_add (c[1]) (as_u32 accum1) ;;
    Ok (set_nth 1 c1 c).

  Definition square28_ : res fe28 :=
    aa <- map_res (fun i => u64_add (a[i]) (a[i + 8])) (range 0 8) ;;
    st <- square_j0 aa zero28 ;;
    st <- for_each (range 1 7) (square_j aa) st ;;
    st <- square_j7 aa st ;;
    square_final st.
End Square.
Definition square28 (a : fe28) : res fe28 := square28_ a.
