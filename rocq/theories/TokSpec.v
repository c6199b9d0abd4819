(** * What the properties of positions in JSON texts say *)

From Verif Require Import Base StrModel Utf8Model JsonModel TokModel.

(** The states that calls of [next] lead to, whether they succeed or not. *)
Inductive reached (alnum : Z -> bool) (input : str) : tokenizer -> Prop :=
| re_init : reached alnum input (token_init input)
| re_next k k' r : reached alnum input k -> next_token alnum (utf8_encode input) k = Ret (k', r) -> reached alnum input k'.

(** What a user of the tokenizer sees after one call of [next]. *)
Definition seen : Type := result unit jerr * token * outcome str.

(** What they see during [n] calls. *)
Fixpoint seen_bytes (alnum : Z -> bool) (bytes : list byte) (n : nat) (k : tokenizer) : outcome (list seen) :=
  match n with
  | O => Ret []
  | S n' =>
      '(k', r) <- next_token alnum bytes k ;;
      l <- seen_bytes alnum bytes n' k' ;;
      Ret ((r, k_token k', token_value bytes k') :: l)
  end.

(** The same for the model that works on characters. *)
Fixpoint seen_chars (alnum : Z -> bool) (n : nat) (st : tstate) : outcome (list seen) :=
  match n with
  | O => Ret []
  | S n' =>
      '(st', r) <- next alnum st ;;
      l <- seen_chars alnum n' st' ;;
      Ret ((r, t_token st', Ret (tok_value st')) :: l)
  end.
