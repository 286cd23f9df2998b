(* SpecUtf8.v: text in UTF-8 (RFC 3629), for C122. *)
From Verif Require Import Base SpecJson.

(* the Unicode scalar values: not the surrogates (section 3) *)
Definition scalar (c : N) : Prop := c < 55296 \/ 57344 <= c < 1114112.
(* the bytes s are the text whose characters are cs: one UTF-8 form after another *)
Definition text_of (cs : list N) (s : bytes) : Prop := exists ts, Forall2 utf8_form cs ts /\ Forall scalar cs /\ s = concat ts.
(* what a Rust str may hold *)
Definition is_text (s : bytes) : Prop := exists cs, text_of cs s.
