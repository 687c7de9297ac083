(** Property C90: decoding text that need not be UTF-8.  Specification: S_Utf8, S_Lossy.
    [from_utf8_lossy] is used for the names, messages and parameters of C06, C20, C34, C36
    and C38, [lossy_chars] (the same as code points) for the peer ids of C39. *)
From Verif Require Import Base S_Utf8 S_Lossy M_Utf8 P_Lossy.

Theorem C90_characters : forall s cs, lossy_chars s = cs <-> lossy s cs.
Proof. exact (fun s cs => iff_sym (lossy_iff s cs)). Qed.
Print Assumptions C90_characters.
Theorem C90_text : forall s t, from_utf8_lossy s = t <-> exists cs, lossy s cs /\ t = utf8 cs.
Proof. exact from_lossy. Qed.
Print Assumptions C90_text.

(** A stray byte; a character of three bytes, one missing; an overlong sequence. *)
Example C90_nonvacuous :
  lossy_chars ([x61; xff; xe2; x82; x62] ++ [xe2; x82; xac] ++ [xf0; x80; x80]) = [97; 65533; 65533; 98; 8364; 65533; 65533; 65533].
Proof. reflexivity. Qed.
