(** Property C73: Debug output.

    Reading guide (DebugModel.v).  [debug false d] is the text of format!("{:?}", ...) and [debug true d] that of format!("{:#?}", ...);
    [bytes_doc]: the compressed types and MontgomeryPoint; [scalar_doc], [fe28_doc], [fe56_doc], [ed_doc], [tw_doc], [dc_doc]: Scalar, the two
    field types, the point types.  The first theorems say that the text and the
    value printed determine each other, C73_text what the text is. *)
Require Import ZArith List Bool String Ascii.
From Verif Require Import Base FieldBackend Backends ScalarModel TwistedModel EdwardsModel DebugModel SpecDebug DebugMain.
Import ListNotations.
Open Scope Z_scope.

Theorem C73_bytes : forall n a b, bytes n a -> bytes n b -> forall alt, debug alt (bytes_doc a) = debug alt (bytes_doc b) <-> a = b.
Proof. exact bytes_debug. Qed.
Print Assumptions C73_bytes.

Example C73_bytes_case : debug true (bytes_doc [7; 255; 0]) = list_ascii_of_string "[
    7,
    255,
    0,
]".
Proof. exact bytes_text. Qed.

(** A scalar's text gives its 14 words away. *)
Theorem C73_scalar : forall s t, is_scalar s -> is_scalar t -> forall alt, debug alt (scalar_doc s) = debug alt (scalar_doc t) <-> s = t.
Proof. exact scalar_debug. Qed.
Print Assumptions C73_scalar.

Example C73_scalar_case : debug false (scalar_doc scalar_one) = list_ascii_of_string "Scalar([1, 0, 0, 0, 0, 0, 0, 0, 0, 0, 0, 0, 0, 0])".
Proof. exact scalar_text. Qed.

(** Points: the very limbs, with either backend. *)
Theorem C73_points_u32 :
  (forall P Q : EdPoint u32_backend, Forall (array 32 16) [edX P; edY P; edZ P; edT P] -> Forall (array 32 16) [edX Q; edY Q; edZ Q; edT Q] ->
    forall alt, debug alt (ed_doc u32_backend fe28_doc P) = debug alt (ed_doc u32_backend fe28_doc Q) <-> P = Q) /\
  (forall P Q : TwPoint u32_backend, Forall (array 32 16) [twX P; twY P; twZ P; twT P] -> Forall (array 32 16) [twX Q; twY Q; twZ Q; twT Q] ->
    forall alt, (debug alt (tw_doc u32_backend fe28_doc P) = debug alt (tw_doc u32_backend fe28_doc Q) <-> P = Q) /\
                (debug alt (dc_doc u32_backend fe28_doc P) = debug alt (dc_doc u32_backend fe28_doc Q) <-> P = Q)).
Proof. exact (conj ed_debug_u32 (fun P Q HP HQ alt => conj (tw_debug_u32 P Q HP HQ alt) (dc_debug_u32 P Q HP HQ alt))). Qed.
Print Assumptions C73_points_u32.

Theorem C73_points_fiat : forall F,
  (forall P Q : EdPoint (fiat_backend F), Forall (array 64 8) [edX P; edY P; edZ P; edT P] -> Forall (array 64 8) [edX Q; edY Q; edZ Q; edT Q] ->
    forall alt, debug alt (ed_doc (fiat_backend F) fe56_doc P) = debug alt (ed_doc (fiat_backend F) fe56_doc Q) <-> P = Q) /\
  (forall P Q : TwPoint (fiat_backend F), Forall (array 64 8) [twX P; twY P; twZ P; twT P] -> Forall (array 64 8) [twX Q; twY Q; twZ Q; twT Q] ->
    forall alt, (debug alt (tw_doc (fiat_backend F) fe56_doc P) = debug alt (tw_doc (fiat_backend F) fe56_doc Q) <-> P = Q) /\
                (debug alt (dc_doc (fiat_backend F) fe56_doc P) = debug alt (dc_doc (fiat_backend F) fe56_doc Q) <-> P = Q)).
Proof. exact (fun F => conj (ed_debug_fiat F) (fun P Q HP HQ alt => conj (tw_debug_fiat F P Q HP HQ alt) (dc_debug_fiat F P Q HP HQ alt))). Qed.
Print Assumptions C73_points_fiat.

Example C73_points_case : let P := ed_generator u32_backend in Forall (array 32 16) [edX P; edY P; edZ P; edT P].
Proof. exact limbs_case. Qed.

(** Numbers are in decimal, without leading zeros. *)
Theorem C73_numbers : forall z, 0 <= z < 2 ^ 64 ->
  let s := debug false (number z) in
  forallb is_digit s = true /\ number_val 0 s = z /\ (z = 0 -> s = list_ascii_of_string "0") /\ (0 < z -> exists c l, s = c :: l /\ digit_val c <> 0).
Proof. exact decimal_numbers. Qed.
Print Assumptions C73_numbers.

(** What the texts are; [dec] writes a number as C73_numbers says. *)
Theorem C73_text : let dec := fun z => debug false (number z) in
  (forall b, debug false (bytes_doc b) = str "[" ++ commas (map dec b) ++ str "]") /\
  (forall b, b <> [] -> debug true (bytes_doc b) = str "[" ++ [ascii_of_nat 10] ++ lines 4 (map dec b) ++ str "]") /\
  (forall s, debug false (scalar_doc s) = str "Scalar([" ++ commas (map dec s) ++ str "])") /\
  (forall P : EdPoint u32_backend, debug false (ed_doc u32_backend fe28_doc P) = coordinates_written dec "FieldElement28" (edX P) (edY P) (edZ P) (edT P)) /\
  (forall P : TwPoint u32_backend,
    debug false (dc_doc u32_backend fe28_doc P) = str "DecafPoint(" ++ coordinates_written dec "FieldElement28" (twX P) (twY P) (twZ P) (twT P) ++ str ")") /\
  (forall F (P : EdPoint (fiat_backend F)), debug false (ed_doc (fiat_backend F) fe56_doc P) = coordinates_written dec "FieldElement56" (edX P) (edY P) (edZ P) (edT P)) /\
  (forall F (P : TwPoint (fiat_backend F)),
    debug false (dc_doc (fiat_backend F) fe56_doc P) = str "DecafPoint(" ++ coordinates_written dec "FieldElement56" (twX P) (twY P) (twZ P) (twT P) ++ str ")").
Proof. exact (conj bytes_written (conj bytes_written_lines (conj scalar_written (conj ed_written_u32 (conj dc_written_u32 (conj ed_written_fiat dc_written_fiat)))))). Qed.
Print Assumptions C73_text.

(** And over several lines ({:#?}); a value of the types has no empty array. *)
Theorem C73_text_lines : let dec := fun z => debug false (number z) in
  (forall s, s <> [] -> debug true (scalar_doc s) = limbs_in_lines dec 0 "Scalar" s) /\
  (forall P : EdPoint u32_backend, Forall (fun a => a <> []) [edX P; edY P; edZ P; edT P] ->
    debug true (ed_doc u32_backend fe28_doc P) = coordinates_in_lines dec 0 "FieldElement28" (edX P) (edY P) (edZ P) (edT P)) /\
  (forall P : TwPoint u32_backend, Forall (fun a => a <> []) [twX P; twY P; twZ P; twT P] ->
    debug true (dc_doc u32_backend fe28_doc P) =
    str "DecafPoint(" ++ [ascii_of_nat 10] ++ lines 4 [coordinates_in_lines dec 4 "FieldElement28" (twX P) (twY P) (twZ P) (twT P)] ++ str ")") /\
  (forall F (P : EdPoint (fiat_backend F)), Forall (fun a => a <> []) [edX P; edY P; edZ P; edT P] ->
    debug true (ed_doc (fiat_backend F) fe56_doc P) = coordinates_in_lines dec 0 "FieldElement56" (edX P) (edY P) (edZ P) (edT P)) /\
  (forall F (P : TwPoint (fiat_backend F)), Forall (fun a => a <> []) [twX P; twY P; twZ P; twT P] ->
    debug true (dc_doc (fiat_backend F) fe56_doc P) =
    str "DecafPoint(" ++ [ascii_of_nat 10] ++ lines 4 [coordinates_in_lines dec 4 "FieldElement56" (twX P) (twY P) (twZ P) (twT P)] ++ str ")").
Proof. exact (conj scalar_written_lines (conj ed_lines_u32 (conj dc_lines_u32 (conj ed_lines_fiat dc_lines_fiat)))). Qed.
Print Assumptions C73_text_lines.

(** What [limbs_in_lines] looks like. *)
Example C73_text_lines_case : limbs_in_lines (fun z => debug false (number z)) 4 "Scalar" [7; 12] = list_ascii_of_string "Scalar(
        [
            7,
            12,
        ],
    )".
Proof. reflexivity. Qed.

(** Text is not a substitute for ==: equal points may print differently. *)
Theorem C73_equality_refuted : exists P Q : EdPoint u32_backend,
  ed_negate u32_backend P = Ok Q /\ ed_ct_eq u32_backend P Q = Ok true /\ debug false (ed_doc u32_backend fe28_doc P) <> debug false (ed_doc u32_backend fe28_doc Q).
Proof. exact debug_not_equality. Qed.
Print Assumptions C73_equality_refuted.
