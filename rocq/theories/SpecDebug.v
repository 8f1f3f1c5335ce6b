(** Texts for Debug output, written out plainly. *)
Require Import ZArith List Bool String Ascii.
Import ListNotations.
Open Scope Z_scope.

Definition is_digit (c : ascii) : bool := let n := nat_of_ascii c in (48 <=? n)%nat && (n <? 58)%nat.
Definition digit_val (c : ascii) : Z := Z.of_nat (nat_of_ascii c) - 48.
(** Reading a number in decimal, with a the value of the digits before. *)
Definition number_val (a : Z) (l : list ascii) : Z := fold_left (fun a c => 10 * a + digit_val c) l a.

Definition str : string -> list ascii := list_ascii_of_string.
(** "a, b, c" *)
Fixpoint commas (l : list (list ascii)) : list ascii :=
  match l with [] => [] | [x] => x | x :: l' => x ++ str ", " ++ commas l' end.
(** Each on a line of its own, after n spaces and followed by a comma. *)
Definition lines (n : nat) (l : list (list ascii)) : list ascii :=
  flat_map (fun x => repeat " "%char n ++ x ++ str "," ++ [ascii_of_nat 10]) l.
(** Numbers in the notation dec: Name([1, 2, 3]), and the four coordinates of a point. *)
Definition limbs_written (dec : Z -> list ascii) (name : string) (a : list Z) : list ascii := str name ++ str "([" ++ commas (map dec a) ++ str "])".
Definition coordinates_written (dec : Z -> list ascii) (name : string) (X Y Z T : list Z) : list ascii :=
  str "ExtendedPoint { X: " ++ limbs_written dec name X ++ str ", Y: " ++ limbs_written dec name Y ++
  str ", Z: " ++ limbs_written dec name Z ++ str ", T: " ++ limbs_written dec name T ++ str " }".
(** The same over several lines; n is the indentation of the first and the last. *)
Definition limbs_in_lines (dec : Z -> list ascii) (n : nat) (name : string) (a : list Z) : list ascii :=
  str name ++ str "(" ++ [ascii_of_nat 10] ++
  repeat " "%char (n + 4) ++ str "[" ++ [ascii_of_nat 10] ++
  lines (n + 8) (map dec a) ++
  repeat " "%char (n + 4) ++ str "]," ++ [ascii_of_nat 10] ++
  repeat " "%char n ++ str ")".
Definition coordinates_in_lines (dec : Z -> list ascii) (n : nat) (name : string) (X Y Z T : list Z) : list ascii :=
  str "ExtendedPoint {" ++ [ascii_of_nat 10] ++
  lines (n + 4) [str "X: " ++ limbs_in_lines dec (n + 4) name X; str "Y: " ++ limbs_in_lines dec (n + 4) name Y;
                 str "Z: " ++ limbs_in_lines dec (n + 4) name Z; str "T: " ++ limbs_in_lines dec (n + 4) name T] ++
  repeat " "%char n ++ str "}".
