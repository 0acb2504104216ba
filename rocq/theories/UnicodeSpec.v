(** * Unicode text and its encoding, from the Unicode standard (D76, table 3-6) *)
From Verif Require Import Base.
Open Scope list_scope. Open Scope N_scope.

(** a Unicode scalar value: a code point that is no surrogate *)
Definition scalar (c : N) : Prop := c < 0xD800 \/ 0xE000 <= c < 0x110000.
(** the UTF-8 encoding of a code point *)
Definition encode (c : N) : list N :=
  if c <? 0x80 then [c]
  else if c <? 0x800 then [0xC0 + c / 64; 0x80 + c mod 64]
  else if c <? 0x10000 then [0xE0 + c / 4096; 0x80 + c / 64 mod 64; 0x80 + c mod 64]
  else [0xF0 + c / 262144; 0x80 + c / 4096 mod 64; 0x80 + c / 64 mod 64; 0x80 + c mod 64].
Definition encoded (cs : list N) : list N := flat_map encode cs.
