(** C35: UTF-8 validation and encoding. *)
From Coq Require Import ZArith List Bool Lia.
From Verif Require Import Base Utf8Model Utf8Proofs.
Import ListNotations.
Open Scope Z_scope.

(** The validator decides, for every sequence of bytes, whether it is the
    encoding of a sequence of Unicode scalar values. *)
Theorem C35_validate_exact : forall bs, Forall byte bs ->
  (valid_utf8 bs -> utf8_validate bs = Ok true) /\ (~ valid_utf8 bs -> utf8_validate bs = Ok false).
Proof.
  intros bs B. destruct (validate_ok bs B) as ([|] & E & I).
  - split; [auto|]. intros N. destruct N. apply I. auto.
  - split; [|auto]. intros V. apply I in V. discriminate.
Qed.

(** Encoding then decoding a scalar value, in any context, gives it back. *)
Theorem C35_encode_decode : forall u rest, scalar_value u ->
  utf8_next (utf8_encode u ++ rest) false = (u, rest).
Proof. intros u rest S. rewrite encode_utf8; [apply next_utf8; auto|apply S]. Qed.

(** What decodes is what encoding the decoded value gives. *)
Theorem C35_decode_encode : forall bs u rest, Forall byte bs -> utf8_next bs false = (u, rest) ->
  u <> utf_illegal -> bs = utf8_encode u ++ rest /\ scalar_value u.
Proof. intros bs u rest B E N. apply next_inv in E as (E & S); auto. rewrite encode_utf8; [auto|apply S]. Qed.

(** The encoding of a code point is the one of RFC 3629. *)
Theorem C35_encode : forall u, 0 <= u < 1114112 -> utf8_encode u = utf8 u.
Proof. exact encode_utf8. Qed.

(** U+00E9 U+20AC U+1F600; an overlong slash, a surrogate, a value above U+10FFFF,
    a truncated sequence *)
Example C35_example :
  utf8_validate [195; 169; 226; 130; 172; 240; 159; 152; 128] = Ok true /\
  utf8_validate [192; 175] = Ok false /\ utf8_validate [224; 128; 175] = Ok false /\
  utf8_validate [237; 160; 128] = Ok false /\ utf8_validate [244; 144; 128; 128] = Ok false /\
  utf8_validate [226; 130] = Ok false /\
  utf8_encode 128512 = [240; 159; 152; 128] /\
  utf8_next [240; 159; 152; 128; 65] false = (128512, [65]).
Proof. vm_compute. auto 10. Qed.

Print Assumptions C35_validate_exact.
Print Assumptions C35_encode_decode.
Print Assumptions C35_decode_encode.
Print Assumptions C35_encode.
