(** The steps a release build takes (for C81): the word machine of TraceSpec.v with the arithmetic of ReleaseSpec.v. *)
Require Import ZArith List Bool.
From Verif Require Import Base FieldBackend FiatCode Backends ApiExpr Steps StepU32 StepFiat StepScalar StepCurve TraceSpec TraceSpec64 ReleaseSpec.
Import ListNotations.
Open Scope Z_scope.

(** As [watched], but [+], [-] and [*] wrap.  What is written down is the same: an operation and how its operands were made. *)
Definition watched_release : cpu (tracing word_op) := mkCpu (tracing word_op)
  (Z * wshape)
  (fun z => (z, WLit z))
  (fun o x y => wordop (WChk o (snd x) (snd y)) (Ok (unchecked o (fst x) (fst y))))
  (fun o x y => wordop (WBin o (snd x) (snd y)) (Ok (bin_z o (fst x) (fst y))))
  (fun o x => wordop (WUn o (snd x)) (Ok (un_z o (fst x))))
  (fun o x => does (OGuard o (snd x)) (if negb (guard_z o (fst x)) then Panic else Ok tt))
  (fun o x => does (OTest o (snd x)) (Ok (test_z o (fst x))))
  (fun x => does (OReveal (snd x)) (Ok (fst x)))
  (fun c => wordop WUnwrap (Ok (Z.b2z c)))
  goes.

Definition rwords : backend := limbs (tracing word_op) watched_release.
Definition rwords64 : backend := limbs64 (tracing word_op) watched_release.
Definition rwords_machine : machine (tracing word_op) rwords := word_machine (tracing word_op) watched_release inputs.
Definition rwords64_machine : machine (tracing word_op) rwords64 := word_machine64 (tracing word_op) watched_release inputs.
Definition release_steps {s} (e : api s) : list (event word_op) * res (option (val rwords s)) := api_runS (tracing word_op) rwords rwords_machine e.
Definition release_steps64 {s} (e : api s) : list (event word_op) * res (option (val rwords64 s)) := api_runS (tracing word_op) rwords64 rwords64_machine e.
(** The words of a result (only its type changes), and the numbers in them. *)
Definition rwords_out {s} : val rwords s -> val words s := map_val (O := rwords) (B := words) (fun l => l) s.
Definition rwords64_out {s} : val rwords64 s -> val words64 s := map_val (O := rwords64) (B := words64) (fun l => l) s.

(** Where the debug build returns, the release build did the same steps and returns the same. *)
Definition kept_steps {A} (debug rel : list (event word_op) * res A) : Prop := forall v, snd debug = Ok v -> rel = debug.
