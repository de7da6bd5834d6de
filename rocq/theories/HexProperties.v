(** C67: hexadecimal text. *)
From Coq Require Import ZArith Znumtheory List Bool Lia.
From Verif Require Import Outcome UtilsModel UtilsSpec WordsModel WordsSpec BigintModel BigintSpec BigintClaims NumModel FpModel EcGroup ZpField EcModel EcSpec EcFeSpec EcCurveModel EcClaims EcLaws NamedModel NamedSpec NamedGroup EcQuotClaims HexModel HexSpec HexClaims HexNamed.
Import ListNotations.
Open Scope Z_scope.

(** C67: a big integer from hexadecimal text of any length and case, with or without a terminating NUL, and from a literal, is the number the digits denote. *)
Theorem C67_of_hex : forall c s t v, written s t -> hex_number t v -> room c (text_words (length t)) ->
  exists r, of_hex c s = Ok r /\ of_literal c t = Ok r /\ canonical c r /\ value r = v.
Proof. exact of_hex_claim. Qed.
Print Assumptions C67_of_hex.
(** C67: text too long for the capacity aborts, whatever its number. *)
Theorem C67_too_long : forall c s t v, written s t -> hex_number t v -> ~ room c (((length t + 1) / 2 + 3) / 4) -> of_hex c s = Abort /\ of_literal c t = Abort.
Proof. exact of_hex_long. Qed.
Print Assumptions C67_too_long.
(** C67: text with a character that is not a digit aborts. *)
Theorem C67_not_hex : forall c s t a, written s t -> In a t -> a <> 0 -> ~ is_hex_char a -> of_hex c s = Abort.
Proof. exact of_hex_bad. Qed.
Print Assumptions C67_not_hex.
(** C67: a text denotes one number. *)
Theorem C67_unique : forall s v, hex_number s v -> forall w, hex_number s w -> v = w.
Proof. exact number_fun. Qed.
Print Assumptions C67_unique.
(** C67: generate_point of a text, and of a literal, whose NUL becomes part of the text, is generate_point of the number, for the three classes of points. *)
Theorem C67_generate : forall c C s t v, written s t -> hex_number t v -> room c (text_words (length t)) ->
  exists x, canonical c x /\ value x = v /\ generate_hex c C s = generate_point c C x /\ generate_hex_proj c C s = generate_point_proj c C x /\ generate_hex_jac c C s = generate_point_jac c C x /\
    generate_literal c C t = generate_point c C x /\ generate_literal_proj c C t = generate_point_proj c C x /\ generate_literal_jac c C t = generate_point_jac c C x.
Proof. exact generate_hex_claim. Qed.
Print Assumptions C67_generate.
(** C67: on the named curves the point of a text is its number times the generator, for numbers from 1 to n - 1; every other text aborts. *)
Theorem C67_named : forall wasm m C, In m named_curves -> named_curve wasm m = Ok C -> forall Pp : prime (value (cu_p C)), forall s t v, written s t -> hex_number t v -> room (named_cap wasm m) (text_words (length t)) ->
  (0 < v < value (cu_n C) -> exists R, generate_hex (named_cap wasm m) C s = Ok R /\ generate_literal (named_cap wasm m) C t = Ok R /\
     aff_pt (cu_p C) Pp R = zmul (kval (cu_p C) Pp (cu_a C)) v (aff_pt (cu_p C) Pp (cu_g C)) /\ aff_is_identity (fe_ops (named_cap wasm m) (cu_p C)) R = false) /\
  (~ 0 < v < value (cu_n C) -> generate_hex (named_cap wasm m) C s = Abort /\ generate_literal (named_cap wasm m) C t = Abort).
Proof. exact named_hex_claim. Qed.
Print Assumptions C67_named.
(** C67: print writes a minus sign exactly for negative numbers, then the digits of the absolute value, two per byte, which read back as it. *)
Theorem C67_print : forall c x, valid c x -> exists t, print_text x = (if value x <? 0 then [45] else []) ++ t /\ hex_number t (Z.abs (value x)) /\ length t = (2 * Z.to_nat (byte_length x))%nat /\
  (exists r, of_hex c t = Ok r /\ value r = Z.abs (value x)) /\ (value x < 0 -> of_hex c (print_text x) = Abort).
Proof. exact print_claim. Qed.
Print Assumptions C67_print.

(** "1aF" with a NUL; -431 prints as "-01af"; the literal "a" on a curve of 43 *)
Example C67_ex : hex_number [49; 97; 70] 431 /\ (exists r, of_hex (Fixed 1) [49; 97; 70; 0] = Ok r /\ value r = 431) /\ of_hex (Fixed 1) (repeat 48 9) = Abort /\ of_hex (Fixed 2) [49; 32] = Abort /\
  print_text (of_int (Fixed 1) (-431)) = [45; 48; 49; 97; 102] /\ generate_literal ex_c E43 [97] = Ok (q43 4 38) /\ generate_literal ex_c E43 [] = Abort.
Proof.
  split; [apply (hn_digit [49; 97] 26 70 15); [apply (hn_digit [49] 1 97 10); [apply (hn_digit [] 0 49 1); [constructor|apply (hex_dec 1); lia]|apply (hex_lower 10); lia]|apply (hex_upper 15); lia]|].
  split; [eexists; split; vm_compute; reflexivity|]. repeat split; vm_compute; reflexivity.
Qed.
