(** Unicode, for the bindings: scalar values, UTF-8 and UTF-16 (RFC 3629, RFC
    2781).  No code of /repo is modelled here. *)
From Verif Require Import Base.

Definition scalar (c : N) : Prop := (c < 0xD800)%N \/ (0xE000 <= c < 0x110000)%N.
Definition utf8_char (c : N) : text :=
  if (c <? 0x80)%N then [c]
  else if (c <? 0x800)%N then [0xC0 + c / 64; 0x80 + c mod 64]%N
  else if (c <? 0x10000)%N then [0xE0 + c / 4096; 0x80 + c / 64 mod 64; 0x80 + c mod 64]%N
  else [0xF0 + c / 262144; 0x80 + c / 4096 mod 64; 0x80 + c / 64 mod 64; 0x80 + c mod 64]%N.
Definition utf8 (cs : list N) : text := flat_map utf8_char cs.
Definition utf16_char (c : N) : text :=
  if (c <? 0x10000)%N then [c] else [0xD800 + (c - 0x10000) / 1024; 0xDC00 + (c - 0x10000) mod 1024]%N.
Definition utf16 (cs : list N) : text := flat_map utf16_char cs.
(** The bytes are the UTF-8 of these scalar values. *)
Definition is_utf8 (bs : text) (cs : list N) : Prop := Forall scalar cs /\ bs = utf8 cs.
