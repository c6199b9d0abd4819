(** * Lexers as LALRPOP makes them

    The crates [lalrpop_util] 0.19 (module [lexer]) and [regex] are not in /repo. [find] is what [Regex::find] does with
    an anchored pattern: the alternatives are tried in the order of preference (greedy) and the first success counts.
    [lex] is [Matcher::next], repeated until it ends or fails. Lengths and places count characters; the crates count
    bytes. All candidates are prefixes of the same text, so the longest is the same either way. *)

From Verif Require Import Base StrModel JsonModel.
Local Open Scope nat_scope.

(** A class of characters: ranges with both ends, or [\s]. *)
Inductive cls : Type := Ranges (l : list (Z * Z)) | Space.

Definition in_cls (k : cls) (c : Z) : bool :=
  match k with
  | Ranges l => existsb (fun r => (fst r <=? c)%Z && (c <=? snd r)%Z) l
  | Space => is_whitespace c
  end.

(** The patterns that occur: repetition is of classes only. *)
Inductive re : Type := Cls (k : cls) | Star (k : cls) | Eps | Seq (a b : re) | Opt (a : re).

Fixpoint seqs (l : list re) : re := match l with [] => Eps | [a] => a | a :: l' => Seq a (seqs l') end.
Definition fixed (l : list (list (Z * Z))) : re := seqs (map (fun k => Cls (Ranges k)) l).

Section Search.
Variable A : Type.

(** Greedy repetition: as many as possible first. *)
Fixpoint search_star (k : cls) (s : str) (next : str -> option A) : option A :=
  match s with
  | c :: s' =>
      if in_cls k c then match search_star k s' next with Some a => Some a | None => next s end
      else next s
  | [] => next s
  end.

(** [next] continues with the rest of the text. *)
Fixpoint search (r : re) (s : str) (next : str -> option A) : option A :=
  match r with
  | Cls k => match s with c :: s' => if in_cls k c then next s' else None | [] => None end
  | Star k => search_star k s next
  | Eps => next s
  | Seq a b => search a s (fun s' => search b s' next)
  | Opt a => match search a s next with Some x => Some x | None => next s end
  end.
End Search.

(** The text left after the match. *)
Definition find_re (r : re) (s : str) : option str := search str r s Some.

(** A pattern and whether its matches are skipped. *)
Definition pattern : Type := (re * bool)%type.

(** The loop over the matching patterns: [if len >= longest_match]. State: length, index, skipped. *)
Fixpoint longest (ps : list pattern) (i : nat) (s : str) (best : option (nat * nat * bool)) : option (nat * nat * bool) :=
  match ps with
  | [] => best
  | (r, sk) :: ps' =>
      longest ps' (S i) s
        match find_re r s with
        | Some rest =>
            let n := length s - length rest in
            match best with
            | Some (m, _, _) => if m <=? n then Some (n, i, sk) else best
            | None => Some (n, i, sk)
            end
        | None => best
        end
  end.

(** Tokens with the number of their pattern, and the place of an [InvalidToken]. [fuel]: the number of characters is
    enough, for every round takes at least one. *)
Fixpoint lex (ps : list pattern) (fuel : nat) (at_ : nat) (s : str) : list (nat * str) * option nat :=
  match fuel with
  | 0 => ([], None)
  | S f =>
      match s with
      | [] => ([], None)
      | _ :: _ =>
          match longest ps 0 s None with
          | None => ([], Some at_)
          | Some (n, i, true) => if n =? 0 then ([], Some at_) else lex ps f (at_ + n) (skipn n s)
          | Some (n, i, false) =>
              let (toks, e) := lex ps f (at_ + n) (skipn n s) in ((i, firstn n s) :: toks, e)
          end
      end
  end.
