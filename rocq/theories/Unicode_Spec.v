(* Unicode encoding forms, written from The Unicode Standard (section 3.9), not from the code. Multi-byte units little endian. *)
From Verif Require Import Base Unicode_Model.

Definition code_point (u : Z) : Prop := 0 <= u <= 0x10FFFF.
Definition surrogate (u : Z) : Prop := 0xD800 <= u <= 0xDFFF.
Definition scalar (u : Z) : Prop := code_point u /\ ~ surrogate u.

Definition utf8_enc (u : Z) : list Z :=
  if u <? 0x80 then [u]
  else if u <? 0x800 then [0xC0 + u / 64; 0x80 + u mod 64]
  else if u <? 0x10000 then [0xE0 + u / 4096; 0x80 + u / 64 mod 64; 0x80 + u mod 64]
  else [0xF0 + u / 262144; 0x80 + u / 4096 mod 64; 0x80 + u / 64 mod 64; 0x80 + u mod 64].
Definition le16 (v : Z) : list Z := [v mod 256; v / 256].
Definition utf16_enc (u : Z) : list Z :=
  if u <? 0x10000 then le16 u
  else le16 (0xD800 + (u - 0x10000) / 1024) ++ le16 (0xDC00 + (u - 0x10000) mod 1024).
Definition utf32_enc (u : Z) : list Z := [u mod 256; u / 256 mod 256; u / 65536 mod 256; u / 16777216].

Definition enc (e : encoding) (u : Z) : list Z :=
  match e with EncUTF8 => utf8_enc u | EncUTF16 => utf16_enc u | EncUTF32 => utf32_enc u | EncLatin1 => [u] end.
Definition encs (e : encoding) (us : list Z) : list Z := flat_map (enc e) us.

(* texts that can be written in an encoding *)
Definition in_charset (e : encoding) (u : Z) : Prop := match e with EncLatin1 => 0 <= u <= 0xFF | _ => scalar u end.
(* what the readers accept: as above, except that UTF-8 sequences of surrogate code points are accepted too *)
Definition accepted (e : encoding) (u : Z) : Prop :=
  match e with EncLatin1 => 0 <= u <= 0xFF | EncUTF8 => code_point u | _ => scalar u end.
Definition len (l : list Z) : Z := Z.of_nat (length l).
