(** * Model of core/json/tokenizer.rs with byte positions

    [JsonModel.next] works on the list of characters that remain. Here the tokenizer is written out with its look-ahead
    character, its iterator and its range of byte positions. *)

From Coq Require Import Strings.String.
From Verif Require Import Base StrModel Utf8Model JsonModel.
Local Open Scope list_scope.

(** ** Parts of [str] in the standard library *)

(** [str::char_indices]: the characters with the positions of their first bytes. *)
Fixpoint char_indices (pos : nat) (s : str) : list (nat * char) :=
  match s with
  | [] => []
  | c :: s' => (pos, c) :: char_indices (pos + List.length (utf8_char c)) s'
  end.

(** [str::is_char_boundary]: the start, the end, or a byte that does not continue a character ([as i8 >= -0x40]). *)
Definition is_char_boundary (bs : list byte) (i : nat) : bool :=
  (i =? 0)%nat ||
  match nth_error bs i with
  | Some b => (b2z b <? 0x80)%Z || (0xC0 <=? b2z b)%Z
  | None => (i =? List.length bs)%nat
  end.

(** [str::get] with a range; [None] as in the code or if the bytes were no text (proved not to happen). *)
Definition str_get (bs : list byte) (a b : nat) : option str :=
  if (a <=? b)%nat && is_char_boundary bs a && is_char_boundary bs b then utf8_decode (firstn (b - a) (skipn a bs)) else None.

(** ** The tokenizer *)

(** src/core/json/tokenizer.rs:130-137 [Tokenizer]; the input is a separate argument. *)
Record tokenizer : Type := {
  k_token : token;
  k_look : option (nat * char);
  k_iter : list (nat * char);
  k_start : nat;
  k_end : nat;
  k_buf : str
}.

Definition with_token (k : tokenizer) (t : token) : tokenizer :=
  {| k_token := t; k_look := k_look k; k_iter := k_iter k; k_start := k_start k; k_end := k_end k; k_buf := k_buf k |}.
Definition with_range (k : tokenizer) (a b : nat) : tokenizer :=
  {| k_token := k_token k; k_look := k_look k; k_iter := k_iter k; k_start := a; k_end := b; k_buf := k_buf k |}.
Definition with_buf (k : tokenizer) (s : str) : tokenizer :=
  {| k_token := k_token k; k_look := k_look k; k_iter := k_iter k; k_start := k_start k; k_end := k_end k; k_buf := s |}.

(** The look-ahead character. *)
Definition look (k : tokenizer) : option char := option_map snd (k_look k).

(** src/core/json/tokenizer.rs:157-159 [advance]. *)
Definition advance (k : tokenizer) : tokenizer :=
  {| k_token := k_token k; k_look := hd_error (k_iter k); k_iter := tl (k_iter k);
     k_start := k_start k; k_end := k_end k; k_buf := k_buf k |}.

Section Input.
Variables (alnum : Z -> bool) (input : list byte).

(** src/core/json/tokenizer.rs:161-166 [current_pos]. *)
Definition current_pos (k : tokenizer) : nat := match k_look k with Some (i, _) => i | None => List.length input end.

(** src/core/json/tokenizer.rs:167-175 [mark_start], [mark_end]. *)
Definition mark_start (k : tokenizer) : tokenizer := with_range k (current_pos k) (current_pos k).
Definition mark_end (k : tokenizer) : tokenizer := with_range k (k_start k) (current_pos k).

(** The loops of [skip_whitespace] and [digits] (src/core/json/tokenizer.rs:177-185 and 299-307); each turn takes one
    character from the iterator, [n] is how many there are. *)
Fixpoint skip_while (f : char -> bool) (n : nat) (k : tokenizer) : tokenizer :=
  match look k with
  | Some c => if f c then match n with O => advance k | S n' => skip_while f n' (advance k) end else k
  | None => k
  end.

Definition skip_white (k : tokenizer) : tokenizer := skip_while is_whitespace (List.length (k_iter k)) k.
Definition skip_digits (k : tokenizer) : tokenizer := skip_while is_digit (List.length (k_iter k)) k.

Definition kstep : Type := tokenizer * result unit jerr.

(** src/core/json/tokenizer.rs:187-191 [single_char_token]. *)
Definition single_char (k : tokenizer) (t : token) : outcome kstep := Ret (advance (with_token k t), Ok tt).

(** src/core/json/tokenizer.rs:193-219 [match_keyword]. *)
Fixpoint keyword (target : str) (t : token) (k : tokenizer) : kstep :=
  match target with
  | c :: target' =>
      match look k with
      | Some c' => if (c' =? c)%Z then keyword target' t (advance k) else (with_token k KError, Err EToken)
      | None => (with_token k KError, Err EToken)
      end
  | [] =>
      match look k with
      | Some c => if is_alphanumeric alnum c then (with_token k KError, Err EToken) else (with_token k t, Ok tt)
      | None => (with_token k t, Ok tt)
      end
  end.

(** src/core/json/tokenizer.rs:221-224 [push_string_char]. *)
Definition push_char (k : tokenizer) (c : char) : tokenizer := advance (with_buf k (k_buf k ++ [c])).

(** src/core/json/tokenizer.rs:243-259: the loop over the hexadecimal digits. *)
Fixpoint hex_digits (n : nat) (code : Z) (k : tokenizer) : tokenizer * option Z :=
  match n with
  | O => (k, Some code)
  | S n' =>
      match look k with
      | Some c =>
          match hex_digit c with
          | Some d => hex_digits n' (code * 16 + d)%Z (advance k)
          | None => hex_digits n' code k
          end
      | None => (k, None)
      end
  end.

(** src/core/json/tokenizer.rs:226-267 [string_control_char]. *)
Definition control_char (k0 : tokenizer) : outcome kstep :=
  let k := advance k0 in
  match look k with
  | Some c =>
      if (c =? 47)%Z then Ret (push_char k 47%Z, Ok tt)
      else if (c =? 92)%Z then Ret (push_char k 92%Z, Ok tt)
      else if (c =? 34)%Z then Ret (push_char k 34%Z, Ok tt)
      else if (c =? 98)%Z then Ret (push_char k 8%Z, Ok tt)
      else if (c =? 102)%Z then Ret (push_char k 12%Z, Ok tt)
      else if (c =? 110)%Z then Ret (push_char k 10%Z, Ok tt)
      else if (c =? 114)%Z then Ret (push_char k 13%Z, Ok tt)
      else if (c =? 116)%Z then Ret (push_char k 9%Z, Ok tt)
      else if (c =? 117)%Z then
        match hex_digits 4 0%Z (advance k) with
        | (k', None) => Ret (k', Err EUnicode)
        | (k', Some code) => if is_char code then Ret (with_buf k' (k_buf k' ++ [code]), Ok tt) else Panic
        end
      else Ret (k, Err EEscape)
  | None => Ret (k, Err EEscape)
  end.

(** src/core/json/tokenizer.rs:275-297: the loop of [match_string] and what follows it. The fuel bounds the number of
    turns; running out of it would be [Undef], which is proved not to happen. *)
Fixpoint string_chars (fuel : nat) (k : tokenizer) : outcome kstep :=
  match fuel with
  | O => Undef
  | S f =>
      match look k with
      | Some c =>
          if (c =? 34)%Z then Ret (with_token (advance k) KString, Ok tt)
          else if (c =? 92)%Z then
            '(k', r) <- control_char k ;;
            match r with Ok _ => string_chars f k' | Err e => Ret (k', Err e) end
          else if (c <=? 0x1f)%Z then Ret (with_token (mark_end k) KError, Err EQuote)
          else string_chars f (push_char k c)
      | None => Ret (with_token (mark_end k) KError, Err EQuote)
      end
  end.

(** src/core/json/tokenizer.rs:269-297 [match_string]. *)
Definition string_token (k : tokenizer) : outcome kstep :=
  string_chars (S (S (List.length (k_iter k)))) (with_buf (advance (mark_start k)) []).

(** [if let Some((_, ch)) = self.look_ahead] with a test of the character. *)
Definition looks (k : tokenizer) (f : char -> bool) : bool := match look k with Some c => f c | None => false end.

(** src/core/json/tokenizer.rs:309-354 [match_number]. *)
Definition number_token (k0 : tokenizer) : outcome kstep :=
  let k := mark_start k0 in
  let k := if looks k (Z.eqb 45) then advance k else k in
  match
    (if looks k (Z.eqb 48) then Some (advance k)
     else if looks k is_digit then Some (skip_digits (advance k)) else None)
  with
  | None => Ret (k, Err ENumber)
  | Some k =>
      let k := if looks k (Z.eqb 46) then skip_digits (advance k) else k in
      match
        (if looks k (fun c => (c =? 101)%Z || (c =? 69)%Z) then
           let k := advance k in
           let k := if looks k (fun c => (c =? 43)%Z || (c =? 45)%Z) then advance k else k in
           if looks k is_digit then (skip_digits k, true) else (k, false)
         else (k, true))
      with
      | (k, false) => Ret (k, Err EExponent)
      | (k, true) => Ret (with_token (mark_end k) KNumber, Ok tt)
      end
  end.

(** src/core/json/tokenizer.rs:368-404 [next]. *)
Definition next_token (k0 : tokenizer) : outcome kstep :=
  let k := skip_white k0 in
  match look k with
  | None => Ret (with_token k KEof, Ok tt)
  | Some c =>
      if (c =? 91)%Z then single_char k KBeginArray
      else if (c =? 93)%Z then single_char k KEndArray
      else if (c =? 123)%Z then single_char k KBeginObject
      else if (c =? 125)%Z then single_char k KEndObject
      else if (c =? 44)%Z then single_char k KComma
      else if (c =? 58)%Z then single_char k KColon
      else if (c =? 110)%Z then Ret (keyword (lit "null") KNull k)
      else if (c =? 116)%Z then Ret (keyword (lit "true") KTrue k)
      else if (c =? 102)%Z then Ret (keyword (lit "false") KFalse k)
      else if (c =? 34)%Z then string_token k
      else if (c =? 45)%Z then number_token k
      else if is_digit c then number_token k
      else Ret (with_token k KError, Err EJson)
  end.

(** src/core/json/tokenizer.rs:356-363 [value]: [unwrap] panics. *)
Definition token_value (k : tokenizer) : outcome str :=
  match k_token k with
  | KString => Ret (k_buf k)
  | _ => match str_get input (k_start k) (k_end k) with Some s => Ret s | None => Panic end
  end.

End Input.

(** src/core/json/tokenizer.rs:140-155 [Tokenizer::new], before its call of [next]. *)
Definition token_init (s : str) : tokenizer :=
  let i := char_indices 0 s in
  {| k_token := KEof; k_look := hd_error i; k_iter := tl i; k_start := 0; k_end := 0; k_buf := [] |}.
