(* Vocabulary for statements about text encodings. *)
From Verif Require Import Codec.

(* 0-9, a-f, A-F *)
Definition is_hex_digit (c : N) : Prop := 48 <= c <= 57 \/ 97 <= c <= 102 \/ 65 <= c <= 70.
Definition lower (c : N) : N := if ((65 <=? c) && (c <=? 90))%bool then c + 32 else c.
(* 0-9, a-f *)
Definition hex_digit (d : N) : N := if d <? 10 then 48 + d else 97 + (d - 10).
(* RFC 4648: A-Z, a-z, 0-9, then + and /, or - and _ *)
Definition letter (url : bool) (o : N) : N :=
  if o <? 26 then 65 + o else if o <? 52 then 97 + (o - 26) else if o <? 62 then 48 + (o - 52)
  else if o =? 62 then (if url then 45 else 43) else (if url then 95 else 47).
(* RFC 4648 section 4: three bytes are four letters; what is left over is filled with
   zero bits, and with = if padding is asked for *)
Fixpoint rfc4648 (url padding : bool) (s : bytes) : bytes :=
  let pad n := if padding then repeat 61 n else [] in
  match s with
  | [] => []
  | [a] => [letter url (a / 4); letter url (a mod 4 * 16)] ++ pad 2%nat
  | [a; b] => [letter url (a / 4); letter url (a mod 4 * 16 + b / 16); letter url (b mod 16 * 4)] ++ pad 1%nat
  | a :: b :: c :: s' =>
      [letter url (a / 4); letter url (a mod 4 * 16 + b / 16); letter url (b mod 16 * 4 + c / 64); letter url (c mod 64)]
      ++ rfc4648 url padding s'
  end.
(* the value of bytes, most significant first *)
Definition value (s : bytes) : N := fold_left (fun v b => v * 256 + b) s 0.
