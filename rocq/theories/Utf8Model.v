(** * UTF-8 (Rust standard library)

    The modelled code converts between [str] and bytes with [String::as_bytes] and [str::from_utf8]; these are the
    functions [utf8_encode] and [utf8_decode]. Part of the trusted base; [utf8_decode] is proved to be the exact
    partial inverse of [utf8_encode] in Utf8Facts.v. *)

From Verif Require Import Base StrModel.
Local Open Scope Z_scope.

(** Standard encoding of one scalar value (RFC 3629, table in section 3). *)
Definition utf8_char (c : Z) : list byte :=
  if c <? 0x80 then [z2b c]
  else if c <? 0x800 then [z2b (0xC0 + c / 64); z2b (0x80 + c mod 64)]
  else if c <? 0x10000 then [z2b (0xE0 + c / 4096); z2b (0x80 + c / 64 mod 64); z2b (0x80 + c mod 64)]
  else [z2b (0xF0 + c / 262144); z2b (0x80 + c / 4096 mod 64); z2b (0x80 + c / 64 mod 64); z2b (0x80 + c mod 64)].

Definition utf8_encode (s : str) : list byte := flat_map utf8_char s.

Definition is_cont (b : Z) : bool := (0x80 <=? b) && (b <=? 0xBF).

(** [str::from_utf8] (RFC 3629, syntax in section 4): no overlong forms, no surrogates, nothing above U+10FFFF. *)
Fixpoint utf8_decode (bs : list byte) : option str :=
  match bs with
  | [] => Some []
  | x0 :: r0 =>
      let b0 := b2z x0 in
      if b0 <=? 0x7F then option_map (cons b0) (utf8_decode r0)
      else match r0 with
      | [] => None
      | x1 :: r1 =>
          let b1 := b2z x1 in
          if (0xC2 <=? b0) && (b0 <=? 0xDF) then
            if is_cont b1 then option_map (cons ((b0 - 0xC0) * 64 + (b1 - 0x80))) (utf8_decode r1) else None
          else match r1 with
          | [] => None
          | x2 :: r2 =>
              let b2 := b2z x2 in
              if (0xE0 <=? b0) && (b0 <=? 0xEF) then
                let lo := if b0 =? 0xE0 then 0xA0 else 0x80 in
                let hi := if b0 =? 0xED then 0x9F else 0xBF in
                if (lo <=? b1) && (b1 <=? hi) && is_cont b2
                then option_map (cons ((b0 - 0xE0) * 4096 + (b1 - 0x80) * 64 + (b2 - 0x80))) (utf8_decode r2) else None
              else match r2 with
              | [] => None
              | x3 :: r3 =>
                  let b3 := b2z x3 in
                  if (0xF0 <=? b0) && (b0 <=? 0xF4) then
                    let lo := if b0 =? 0xF0 then 0x90 else 0x80 in
                    let hi := if b0 =? 0xF4 then 0x8F else 0xBF in
                    if (lo <=? b1) && (b1 <=? hi) && is_cont b2 && is_cont b3
                    then option_map (cons ((b0 - 0xF0) * 262144 + (b1 - 0x80) * 4096 + (b2 - 0x80) * 64 + (b3 - 0x80)))
                                    (utf8_decode r3)
                    else None
                  else None
              end
          end
      end
  end.
