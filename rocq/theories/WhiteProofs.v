(** * White space before a token *)

From Coq Require Import ZifyBool.
From Coq Require Import Strings.String.
From Verif Require Import Base StrModel JsonModel JsonLex WhiteSpec.
Local Open Scope Z_scope.
Local Open Scope string_scope.

Lemma white_iff c : is_whitespace c = true <-> In c white_space.
Proof.
  unfold is_whitespace, white_space. cbn [In]. lia.
Qed.

Lemma skip_white w s : Forall (fun c => In c white_space) w -> skip_whitespace (w ++ s)%list = skip_whitespace s.
Proof.
  induction 1 as [|c w H _ IH]; [reflexivity|]. cbn [app skip_whitespace]. apply white_iff in H. rewrite H. exact IH.
Qed.

Lemma next_white alnum st w s : Forall (fun c => In c white_space) w -> t_rest st = (w ++ s)%list ->
  next alnum st = next alnum {| t_token := t_token st; t_rest := s; t_range := t_range st; t_buf := t_buf st |}.
Proof.
  intros F E. unfold next. rewrite E. cbn [t_rest]. rewrite skip_white by exact F.
  destruct (skip_whitespace s) as [|c s']; [reflexivity|].
  unfold single_char_token, match_keyword, match_string, match_number. cbn [t_token t_range t_buf t_rest]. reflexivity.
Qed.

Lemma next_other alnum st c s : ~ In c white_space -> ~ In c (lit "[]{},:ntf""-0123456789") -> t_rest st = c :: s ->
  exists st', next alnum st = Ret (st', Err EJson) /\ t_rest st' = c :: s.
Proof.
  intros W N E. unfold next. rewrite E. cbn [skip_whitespace].
  destruct (is_whitespace c) eqn:X; [apply white_iff in X; contradiction|]. clear W X.
  set (l := lit _) in N. vm_compute in l. subst l. cbn [In] in N.
  assert (H : ((c =? 91) = false /\ (c =? 93) = false /\ (c =? 123) = false /\ (c =? 125) = false /\ (c =? 44) = false /\
    (c =? 58) = false /\ (c =? 110) = false /\ (c =? 116) = false /\ (c =? 102) = false /\ (c =? 34) = false /\
    (c =? 45) = false /\ is_digit c = false)%Z) by (unfold is_digit; lia).
  destruct H as (-> & -> & -> & -> & -> & -> & -> & -> & -> & -> & -> & ->). eexists. split; reflexivity.
Qed.
