(** The scalar arithmetic with integers of other widths (for C90).

    The code of StepScalar.v on a machine on which [+], [-] and [*] on u64 panic as soon as the result does not fit in [u] bits, those on
    i64 as soon as it does not fit in [i] bits with a sign, and those on i8 as soon as it does not fit in [r] bits with a sign. *)
Require Import ZArith List Bool.
From Verif Require Import Base Steps.
Import ListNotations.
Open Scope Z_scope.

Definition chk_short (u i r : Z) (o : chk_op) (x y : Z) : res Z :=
  match o with
  | CU64Add => chk_u u (x + y) | CU64Mul => chk_u u (x * y)
  | CI64Add => chk_i i (x + y) | CI64Sub => chk_i i (x - y)
  | CI8Add => chk_i r (x + y) | CI8Sub => chk_i r (x - y)
  | _ => chk_z o x y
  end.
(** As [plain] of Steps.v otherwise. *)
Definition short (u i r : Z) : cpu panics := mkCpu panics
  Z (fun z => z)
  (chk_short u i r)
  (fun o x y => Ok (bin_z o x y))
  (fun o x => Ok (un_z o x))
  (fun o x => if negb (guard_z o x) then Panic else Ok tt)
  (fun o x => Ok (test_z o x))
  (fun x => Ok x)
  (fun c => Ok (Z.b2z c))
  (fun c => Ok c).
