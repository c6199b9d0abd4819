(** * The lexer of types reads the words of types *)

From Coq Require Import Strings.String.
From Verif Require Import Base StrModel JsonModel LexModel LexSpec LexProofs LrModel TypesModel SqlWords SqlLexProofs SqlShow SqlShowProofs TypeParseModel TypeGrammar.
Local Open Scope Z_scope.
Local Open Scope list_scope.

Definition word_name (j : nat) : string := nth j type_terminals ""%string.

(** The texts of pattern [j]. *)
Definition V (j : nat) (w : str) : Prop :=
  if (j <? 25)%nat then type_shape (word_name j) w else Forall (fun c => is_whitespace c = true) w.

Lemma good_text l : good (fixed (map (fun c => [(c, c)]) l)) (fun w => w = l).
Proof.
  eapply good_iff; [apply good_fixed|]. intros w. split.
  - revert l. induction w as [|c w IH]; intros l F; destruct l as [|d l]; inversion F as [|? ? ? ? H F']; subst; [reflexivity|].
    apply single_cls in H. subst d. f_equal. apply IH. exact F'.
  - intros ->. induction l as [|c l IH]; constructor; [now apply single_cls|exact IH].
Qed.

Lemma good_number : good (seqs [Cls c_digit; Star c_digit]) some_digits.
Proof. eapply good_same; [|exact good_digits]. reflexivity. Qed.

Lemma good_ident : good (seqs [Cls c_start; Star c_name]) identifier.
Proof.
  eapply good_iff; [apply (good_same (Seq (Cls c_start) (Star c_name))); [reflexivity|apply good_cls; apply good_last]|].
  intros w. unfold starts, identifier. split.
  - intros (c & w' & -> & D & M). apply many_none in M. exists c, w'. split; [reflexivity|]. split; [now apply start_cls|].
    exact (Forall_fwd _ _ _ name_cls M).
  - intros (c & cs & -> & D & M). exists c, cs. split; [reflexivity|]. split; [now apply start_cls|]. apply many_none. exact (Forall_bwd _ _ _ name_cls M).
Qed.

Lemma good_blank : good (seqs [Star Space]) (fun w => Forall (fun c => is_whitespace c = true) w).
Proof.
  eapply good_iff; [apply (good_same (Star Space)); [reflexivity|apply good_last]|]. intros w. apply many_none.
Qed.

Lemma type_good j p : nth_error type_patterns j = Some p -> good (fst p) (V j).
Proof.
  intros H. destruct j as [|[|j]].
  - injection H as <-. exact good_number.
  - injection H as <-. exact good_ident.
  - do 23 (destruct j as [|j]; [injection H as <-; match goal with |- good _ (V ?n) => exact (good_text (JsonModel.lit (word_name n))) end|]). destruct j as [|j]; [injection H as <-; apply good_blank|].
    cbn in H. destruct j; discriminate.
Qed.

Lemma type_flags j r sk : nth_error type_patterns j = Some (r, sk) -> sk = (j =? 25)%nat.
Proof. do 26 (destruct j as [|j]; [intros H; injection H as _ <-; reflexivity|]). intros H. cbn in H. destruct j; discriminate. Qed.

Lemma V_fixed j : (2 <= j < 25)%nat -> forall w, V j w <-> w = JsonModel.lit (word_name j).
Proof. intros L w. do 25 (destruct j as [|j]; [try lia; reflexivity|]). lia. Qed.

Definition type_head (c : Z) : bool := negb (is_whitespace c) && negb ((48 <=? c) && (c <=? 57)).

Lemma fixed_head j : (2 <= j < 25)%nat -> exists c w, JsonModel.lit (word_name j) = c :: w /\ type_head c = true.
Proof. intros L. do 25 (destruct j as [|j]; [try lia; eexists; eexists; split; reflexivity|]). lia. Qed.

Lemma V_head j w : (j < 25)%nat -> V j w -> exists c w', w = c :: w' /\ is_whitespace c = false /\ (j <> 0%nat -> ~ digit c).
Proof.
  intros L H. destruct j as [|[|j]].
  - destruct H as [N F]. destruct w as [|c w]; [contradiction|]. exists c, w. apply Forall_inv in F. unfold digit in F. unfold is_whitespace. split; [reflexivity|]. lia.
  - destruct H as (c & w' & -> & S & _). exists c, w'. unfold name_start in S. unfold is_whitespace, digit. split; [reflexivity|]. lia.
  - apply V_fixed in H; [|lia]. subst w. destruct (fixed_head (S (S j))) as (c & w & E & T); [lia|]. exists c, w. split; [exact E|].
    unfold type_head in T. apply andb_prop in T as [T1 T2]. apply negb_true_iff in T1. split; [exact T1|]. unfold digit. lia.
Qed.

Lemma type_full j : (j < 25)%nat -> ~ V j [].
Proof. intros L H. apply V_head in H as (c & w & E & _); [discriminate|exact L]. Qed.
Lemma type_dark j c w : (j < 25)%nat -> V j (c :: w) -> is_whitespace c = false.
Proof. intros L H. apply V_head in H as (c' & w' & E & B & _); [|exact L]. injection E as -> ->. exact B. Qed.

Lemma type_word_pattern t w : type_word t w <-> exists j, (j < 25)%nat /\ t = j /\ V j w.
Proof.
  unfold type_word, V. split.
  - intros (n & N & H). assert (L : (t < 25)%nat) by (change 25%nat with (size type_terminals); apply nth_error_Some; congruence).
    exists t. split; [exact L|]. split; [reflexivity|]. replace (t <? 25)%nat with true by lia. unfold word_name. rewrite (nth_error_nth _ _ ""%string N). exact H.
  - intros (j & L & -> & H). replace (j <? 25)%nat with true in H by lia. exists (word_name j). split; [|exact H]. apply nth_error_nth'. exact L.
Qed.

Lemma type_fixed_differ i j : (2 <= j < i)%nat -> (i < 25)%nat -> JsonModel.lit (word_name i) <> JsonModel.lit (word_name j).
Proof.
  intros H L E.
  assert (A : forallb (fun i => forallb (fun j => negb (same_text (JsonModel.lit (word_name i)) (JsonModel.lit (word_name j))))
    (seq 2 (i - 2))) (seq 2 23) = true) by (vm_compute; reflexivity).
  rewrite forallb_forall in A. specialize (A i). rewrite in_seq in A. specialize (A ltac:(lia)).
  rewrite forallb_forall in A. specialize (A j). rewrite in_seq in A. specialize (A ltac:(lia)).
  unfold same_text in A. rewrite E in A. destruct (list_eq_dec Z.eq_dec _ _); [discriminate|congruence].
Qed.

Lemma type_prefers i j w : (i < 25)%nat -> (j < i)%nat -> V i w -> V j w -> type_prefer i j /\ ~ type_prefer j i.
Proof.
  intros Li Lj Hi Hj. destruct j as [|[|j]].
  - exfalso. destruct (V_head _ _ Li Hi) as (c & w' & -> & _ & D). destruct Hj as [_ F]. apply Forall_inv in F. apply D; [lia|exact F].
  - unfold type_prefer. change (type_terminal "IDENT") with 1%nat. lia.
  - exfalso. rewrite V_fixed in Hi, Hj by lia. apply (type_fixed_differ i (S (S j))); [lia|exact Li|congruence].
Qed.

Lemma named_same (l : list (nat * str)) : map (fun t => (fst t, snd t)) l = l.
Proof. induction l as [|[a b] l IH]; [reflexivity|]. cbn [map fst snd]. f_equal. exact IH. Qed.

Theorem type_lex_correct s toks : lex type_patterns (size s) 0 s = (toks, None) <-> type_lexes s toks [].
Proof.
  pose proof (lex_correct type_patterns V 25 is_whitespace (fun j => j) type_word type_prefer type_good eq_refl type_flags (fun w => iff_refl _)
      type_full type_dark type_word_pattern type_prefers s toks) as [A B]. cbv beta in *. split.
  - intros E. apply A in E. rewrite named_same in E. exact E.
  - intros H. destruct (B H) as (ts & E & N). rewrite named_same in N. congruence.
Qed.

Lemma type_lex_place s ts p : lex type_patterns (size s) 0 s = (ts, Some p) ->
  exists r, type_lexes s ts r /\ stuck type_word is_whitespace r /\ (p = size s - size r)%nat.
Proof.
  intros E. pose proof (lex_reads type_patterns V 25 is_whitespace (fun j => j) type_word type_prefer type_good eq_refl type_flags (fun w => iff_refl _)
    type_full type_dark type_word_pattern type_prefers (size s) 0 s (le_n _)) as H. rewrite E in H. cbv beta in H. rewrite named_same in H. exact H.
Qed.

Lemma type_lex_unique s toks r toks' r' :
  type_lexes s toks r -> r = [] \/ stuck type_word is_whitespace r ->
  type_lexes s toks' r' -> r' = [] \/ stuck type_word is_whitespace r' -> toks = toks' /\ r = r'.
Proof.
  intros. eapply (reads_unique type_patterns V 25 is_whitespace (fun j => j) type_word type_prefer type_good eq_refl type_flags (fun w => iff_refl _)
    type_full type_dark type_word_pattern type_prefers); eassumption.
Qed.

(** ** Tokens a lexer can give *)

Definition type_ok (t : LrModel.token) : Prop := type_word (fst t) (snd t) /\ forall t', type_word t' (snd t) -> t' = fst t \/ type_prefer (fst t) t'.

Lemma lexed_type_ok s toks r : type_lexes s toks r -> Forall type_ok toks.
Proof. induction 1 as [s|c s toks r _ _ IH|t w s toks r _ Hw _ P _ IH]; [constructor|exact IH|]. constructor; [split; [exact Hw|exact P]|exact IH]. Qed.

Lemma no_space t w : type_word t w -> Forall (fun c => c <> 32) w.
Proof.
  intros (n & N & H). unfold type_shape in H. destruct (String.eqb n "INT"); [|destruct (String.eqb n "IDENT")].
  - destruct H as [_ H]. eapply Forall_impl; [|exact H]. unfold digit. lia.
  - destruct H as (c & cs & -> & A & B). constructor; [unfold name_start in A; lia|]. eapply Forall_impl; [|exact B]. unfold name_char, name_start, digit. lia.
  - subst w. assert (A : forallb (fun n => forallb (fun c => negb (c =? 32)) (JsonModel.lit n)) type_terminals = true) by reflexivity.
    rewrite forallb_forall in A. specialize (A n (nth_error_In _ _ N)). rewrite forallb_forall in A. apply Forall_forall. intros c I. specialize (A c I). lia.
Qed.

Lemma type_word_full t w : type_word t w -> w <> [].
Proof. intros H ->. apply type_word_pattern in H as (j & L & _ & H). exact (type_full j L H). Qed.

Lemma space_ends (w x : str) s : forall w' rest, w ++ 32 :: s = w' ++ rest -> Forall (fun c => c <> 32) w' -> (size w' <= size w)%nat.
Proof.
  clear x. induction w as [|c w IH]; intros [|d w'] rest E F; cbn [app size] in *; try lia; injection E as E1 E2; apply Forall_inv_tail in F as F'; apply Forall_inv in F; subst.
  - congruence.
  - specialize (IH _ _ E2 F'). lia.
Qed.

Lemma type_text_lexes toks : Forall type_ok toks -> type_lexes (text_of toks) toks [].
Proof.
  induction 1 as [|[t w] toks H _ IH]; [constructor|]. cbn [text_of flat_map snd]. rewrite <- app_assoc. cbn [app]. destruct H as [H P]. cbn [fst snd] in *.
  apply L_word; [exact (type_word_full t w H)|exact H| |exact P|].
  - intros t' w' rest E H'. exact (space_ends w [] _ _ _ E (no_space _ _ H')).
  - apply L_blank; [reflexivity|exact IH].
Qed.
