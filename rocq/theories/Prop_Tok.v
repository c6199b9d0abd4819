(** * Property C70 *)

From Coq Require Import Strings.String.
From Verif Require Import Base StrModel Utf8Model JsonModel JsonExamples TokModel TokSpec TokProofs.
Local Open Scope list_scope.

(** C70: whatever was read before, the look-ahead character stands where the tokenizer says, and [value] is the decoded
    string or the piece of the input between the two positions, which lie between characters. In particular [value]
    does not panic. *)
Theorem token_value_is_a_piece : forall alnum input k, Forall (fun c => is_char c = true) input -> reached alnum input k ->
  (exists before text after, input = before ++ text ++ after /\
    k_start k = List.length (utf8_encode before) /\ k_end k = List.length (utf8_encode (before ++ text)) /\
    token_value (utf8_encode input) k = Ret (match k_token k with KString => k_buf k | _ => text end)) /\
  (exists before after, input = before ++ after /\
    current_pos (utf8_encode input) k = List.length (utf8_encode before) /\ look k = hd_error after).
Proof. intros alnum input k H R. split; [exact (reached_span alnum input H k R)|exact (look_remaining alnum input k R)]. Qed.
Print Assumptions token_value_is_a_piece.

Example token_value_is_a_piece_ex : exists k1 k2 k3,
  let input := [34; 0xE9; 0x20AC; 34; 32; 45; 49; 50; 44]%Z in let bs := utf8_encode input in
  next_token jx_alnum bs (token_init input) = Ret (k1, Ok tt) /\ token_value bs k1 = Ret [0xE9; 0x20AC]%Z /\
  next_token jx_alnum bs k1 = Ret (k2, Ok tt) /\ k_start k2 = 8%nat /\ k_end k2 = 11%nat /\ token_value bs k2 = Ret (lit "-12") /\
  next_token jx_alnum bs k2 = Ret (k3, Ok tt) /\ k_token k3 = KComma /\ token_value bs k3 = Ret (lit "-12") /\
  Forall (fun c => is_char c = true) input /\ reached jx_alnum input k3.
Proof.
  cbv zeta. set (input := [34; 0xE9; 0x20AC; 34; 32; 45; 49; 50; 44]%Z).
  eassert (E1 : next_token jx_alnum (utf8_encode input) (token_init input) = Ret (_, Ok tt)) by (vm_compute; reflexivity).
  match type of E1 with _ = Ret (?k, _) =>
    eassert (E2 : next_token jx_alnum (utf8_encode input) k = Ret (_, Ok tt)) by (vm_compute; reflexivity) end.
  match type of E2 with _ = Ret (?k, _) =>
    eassert (E3 : next_token jx_alnum (utf8_encode input) k = Ret (_, Ok tt)) by (vm_compute; reflexivity) end.
  eexists _, _, _. split; [exact E1|]. split; [vm_compute; reflexivity|]. split; [exact E2|].
  split; [vm_compute; reflexivity|]. split; [vm_compute; reflexivity|]. split; [vm_compute; reflexivity|]. split; [exact E3|].
  split; [reflexivity|]. split; [vm_compute; reflexivity|]. split; [repeat constructor|].
  exact (re_next _ _ _ _ _ (re_next _ _ _ _ _ (re_next _ _ _ _ _ (re_init _ _) E1) E2) E3).
Qed.

(** C70: the text of a number ends where the next token begins to be looked for. *)
Theorem number_ends_at_position : forall alnum bytes k k' u,
  next_token alnum bytes k = Ret (k', Ok u) -> k_token k' = KNumber -> k_end k' = current_pos bytes k'.
Proof. exact number_end. Qed.
Print Assumptions number_ends_at_position.

Example number_ends_at_position_ex : exists k', let bs := utf8_encode (lit " 1.5e3]") in
  next_token jx_alnum bs (token_init (lit " 1.5e3]")) = Ret (k', Ok tt) /\ k_token k' = KNumber /\ k_end k' = 6%nat.
Proof. eexists. cbv zeta. split; [vm_compute; reflexivity|]. split; vm_compute; reflexivity. Qed.

(** C70: results, tokens and values are those of the model on characters, of which C19 to C25 speak. *)
Theorem positions_refine_characters : forall alnum input n, Forall (fun c => is_char c = true) input ->
  seen_bytes alnum (utf8_encode input) n (token_init input) = seen_chars alnum n (tok_init input).
Proof. intros alnum input n H. apply seen_same; [exact H|apply init_same]. Qed.
Print Assumptions positions_refine_characters.

Example positions_refine_characters_ex : let input := [91; 34; 0x1F600; 34; 44; 49; 93]%Z in
  Forall (fun c => is_char c = true) input /\
  exists v3, seen_bytes jx_alnum (utf8_encode input) 4 (token_init input) =
    Ret [(Ok tt, KBeginArray, Ret []); (Ok tt, KString, Ret [0x1F600%Z]); (Ok tt, KComma, v3); (Ok tt, KNumber, Ret (lit "1"))].
Proof. split; [repeat constructor|]. eexists. vm_compute. reflexivity. Qed.
