(** The same code with integers of other widths (for C85).

    karatsuba.rs:16 says of the multiplication: "This has been changed to use i128 to avoid using wrapping arithmetic; need to
    check bounds".  Here the code of StepU32.v runs on a machine on which [+], [-] and [*] on i128 panic as soon as the result
    does not fit in [w] bits, so that one can say how many bits it takes. *)
Require Import ZArith List Bool.
From Verif Require Import Base Steps.
Import ListNotations.
Open Scope Z_scope.

(** Checked arithmetic, with signed integers of [w] bits in place of i128. *)
Definition chk_narrow (w : Z) (o : chk_op) (x y : Z) : res Z :=
  match o with
  | CI128Add => chk_i w (x + y) | CI128Sub => chk_i w (x - y) | CI128Mul => chk_i w (x * y)
  | _ => chk_z o x y
  end.
(** As [plain] of Steps.v otherwise. *)
Definition narrow (w : Z) : cpu panics := mkCpu panics
  Z (fun z => z)
  (chk_narrow w)
  (fun o x y => Ok (bin_z o x y))
  (fun o x => Ok (un_z o x))
  (fun o x => if negb (guard_z o x) then Panic else Ok tt)
  (fun o x => Ok (test_z o x))
  (fun x => Ok x)
  (fun c => Ok (Z.b2z c))
  (fun c => Ok c).

(** Sixteen u32 limbs, whatever they are. *)
Definition words16 (a : list Z) : Prop := length a = 16%nat /\ Forall (fun x => 0 <= x < 2 ^ 32) a.
(** The largest limbs of 28 and of 32 bits. *)
Definition full28 : list Z := repeat (2 ^ 28 - 1) 16.
Definition full32 : list Z := repeat (2 ^ 32 - 1) 16.
