(** * Types from text and back *)

From Coq Require Import Strings.String.
From Verif Require Import Base StrModel JsonModel LexModel LexSpec LexProofs LrModel LrSpec LrProofs LrViable TypesModel TypeTables SqlParseModel
  SqlWords SqlLexProofs SqlShow SqlShowProofs SqlViable TypeParseModel TypeGrammar TypeLexProofs TypeParseProofs.
Local Open Scope nat_scope.
Local Open Scope list_scope.

Lemma type_parse_total s : exists r, parse_type s = Ret r.
Proof. destruct (parse_type_correct s) as (r & E & _). eauto. Qed.

Lemma type_parse_grammar s t : parse_type s = Ret (Ok t) <-> exists toks, type_lexes s toks [] /\ is_type toks t.
Proof.
  destruct (parse_type_correct s) as (r & E & C). rewrite E. rewrite <- C. split; [intros H; injection H as ->; reflexivity|intros ->; reflexivity].
Qed.

(** ** At most one parse *)

Lemma type_derives_valid :
  (forall X t w, type_derives X t w -> (forall n, X = T n -> n < 25) -> Forall (fun t : LrModel.token => fst t < 25) w) /\
  (forall Xs ts w, derives_all type_grammar Xs ts w -> (forall n, In (T n) Xs -> n < 25) -> Forall (fun t : LrModel.token => fst t < 25) w).
Proof.
  apply derives_both.
  - intros t s H. constructor; [cbn; auto|constructor].
  - intros p lhs rhs ts w N _ IH _. apply IH. intros n I.
    assert (A : forallb (fun e : nat * list symbol => forallb (fun x => match x with T n => n <? 25 | NT _ => true end) (snd e)) type_grammar = true) by reflexivity.
    rewrite forallb_forall in A. specialize (A _ (nth_error_In _ _ N)). cbn [snd] in A. rewrite forallb_forall in A. specialize (A _ I). cbn in A. lia.
  - constructor.
  - intros X t w Xs ts ws _ IH _ IH' H. apply Forall_app. split; [apply IH; intros n ->; apply H; left; reflexivity|].
    apply IH'. intros n I. apply H. right. exact I.
Qed.

Theorem type_tree_unique toks t t' : type_derives (NT 11) t toks -> type_derives (NT 11) t' toks -> t = t'.
Proof.
  intros D D'. refine (lr_unambiguous (type_tables type_grammar) type_grammar 11 type_cert type_tables_checked toks t t' _ D D').
  apply (proj1 type_derives_valid _ _ _ D). discriminate.
Qed.

Lemma is_type_tree toks t : is_type toks t -> exists tr, type_derives (NT 11) tr toks /\ type_eval tr = Ret (YType t).
Proof. exact (proj1 is_type_has toks t). Qed.

Theorem is_type_unique toks t t' : is_type toks t -> is_type toks t' -> t = t'.
Proof.
  intros H H'. apply is_type_tree in H as (a & D & E). apply is_type_tree in H' as (b & D' & E').
  rewrite (type_tree_unique _ _ _ D D') in E. congruence.
Qed.

(** ** Types with a text *)

Lemma sym_ok s : existsb (String.eqb s) (skipn 2 type_terminals) = true -> type_ok (sym s).
Proof.
  intros M. assert (K : type_word (type_terminal s) (JsonModel.lit s) /\ 2 <= type_terminal s < 25).
  { apply existsb_exists in M as (s' & I & E). apply String.eqb_eq in E. subst s'.
    assert (A : forallb (fun s => (2 <=? type_terminal s) && (type_terminal s <? 25) && match nth_error type_terminals (type_terminal s) with
      | Some n => String.eqb n s && negb (String.eqb n "INT") && negb (String.eqb n "IDENT") | None => false end) (skipn 2 type_terminals) = true) by reflexivity.
    rewrite forallb_forall in A. specialize (A s I). apply andb_prop in A as [A K]. split; [|lia].
    destruct (nth_error type_terminals (type_terminal s)) as [n|] eqn:N; [|discriminate]. apply andb_prop in K as [K K3]. apply andb_prop in K as [K1 K2].
    apply String.eqb_eq in K1. subst n. apply negb_true_iff in K2, K3. exists s. split; [exact N|]. unfold type_shape. rewrite K2, K3. reflexivity. }
  destruct K as [Kw Kr]. split; [exact Kw|]. cbn [fst snd sym]. intros j Hj. apply type_word_pattern in Kw as (i & Li & Ei & Vi). subst i.
  apply type_word_pattern in Hj as (j' & Lj & <- & Vj). destruct (Nat.lt_trichotomy j (type_terminal s)) as [C|[C|C]]; [|auto|].
  - right. exact (proj1 (type_prefers _ _ _ Li C Vi Vj)).
  - exfalso. destruct (proj1 (type_prefers _ _ _ Lj C Vj Vi)) as [_ Q]. change (type_terminal "IDENT") with 1 in Q. lia.
Qed.

Lemma name_ok a : type_ok (name_of a) <-> proper_label a.
Proof.
  unfold proper_label. split.
  - intros [Hw P]. cbn [fst snd name_of] in *. destruct Hw as (n & N & H). injection N as <-. split; [exact H|].
    intros I. apply in_map_iff in I as (s & E & I). apply In_nth_error in I as (j & J).
    assert (K : type_word (S (S j)) a).
    { exists s. split; [exact J|]. unfold type_shape.
      assert (A : forallb (fun s => negb (String.eqb s "INT") && negb (String.eqb s "IDENT")) (skipn 2 type_terminals) = true) by reflexivity.
      rewrite forallb_forall in A. specialize (A s (nth_error_In _ _ J)). apply andb_prop in A as [A1 A2]. apply negb_true_iff in A1, A2. rewrite A1, A2. auto. }
    destruct (P _ K) as [Q|[_ Q]]; change (type_terminal "IDENT") with 1 in Q; lia.
  - intros [I N]. split; [exists "IDENT"%string; split; [reflexivity|exact I]|]. cbn [fst snd name_of]. intros j Hj.
    apply type_word_pattern in Hj as (j' & Lj & <- & Vj). change (type_terminal "IDENT") with 1 in *.
    destruct (Nat.lt_trichotomy j 1) as [C|[C|C]]; [|auto|].
    + right. apply (type_prefers 1 j a); [lia|exact C|exact I|exact Vj].
    + exfalso. apply N. apply V_fixed in Vj; [|lia]. subst a. apply in_map. unfold word_name.
      assert (E : nth j type_terminals ""%string = nth (j - 2) (skipn 2 type_terminals) ""%string) by (destruct j as [|[|j]]; [lia|lia|]; cbn [Nat.sub]; rewrite Nat.sub_0_r; reflexivity).
      rewrite E. apply nth_In. change (size (skipn 2 type_terminals)) with 23. lia.
Qed.

Definition show_types : list ty -> list LrModel.token :=
  fix types (l : list ty) := match l with [] => [] | t :: l' => show_type t ++ match l' with [] => [] | _ => sym "," :: types l' end end.
Definition show_fields : list (str * ty) -> list LrModel.token :=
  fix fields (l : list (str * ty)) :=
    match l with
    | [] => []
    | (a, t) :: l' => name_of a :: sym ":" :: show_type t ++ match l' with [] => [] | _ => sym "," :: fields l' end
    end.

Lemma show_types_cons t t' l : show_types (t :: t' :: l) = show_type t ++ sym "," :: show_types (t' :: l).
Proof. reflexivity. Qed.
Lemma show_fields_cons a t f l : show_fields ((a, t) :: f :: l) = name_of a :: sym ":" :: show_type t ++ sym "," :: show_fields (f :: l).
Proof. reflexivity. Qed.

Definition shown (t : ty) : Prop := is_type (show_type t) t /\ Forall type_ok (show_type t).

Lemma shown_types ts : ts <> [] -> Forall shown ts -> is_types (show_types ts) ts /\ Forall type_ok (show_types ts).
Proof.
  induction ts as [|t [|t' ts] IH]; intros N F; [contradiction| |].
  - inversion F as [|? ? [H1 H2] _]; subst. cbn [show_types]. rewrite app_nil_r. split; [constructor; exact H1|exact H2].
  - inversion F as [|? ? [H1 H2] F']; subst. destruct (IH ltac:(discriminate) F') as [I1 I2]. rewrite show_types_cons. split; [constructor; assumption|].
    apply Forall_app. split; [exact H2|]. constructor; [apply sym_ok; reflexivity|exact I2].
Qed.

Lemma shown_fields fs : fs <> [] -> Forall (fun f => proper_label (fst f) /\ shown (snd f)) fs -> is_fields (show_fields fs) fs /\ Forall type_ok (show_fields fs).
Proof.
  induction fs as [|[a t] [|f fs] IH]; intros N F; [contradiction| |].
  - inversion F as [|? ? [L [H1 H2]] _]; subst. cbn [show_fields fst snd] in *. rewrite app_nil_r. split; [constructor; exact H1|].
    constructor; [apply name_ok; exact L|]. constructor; [apply sym_ok; reflexivity|exact H2].
  - inversion F as [|? ? [L [H1 H2]] F']; subst. destruct (IH ltac:(discriminate) F') as [I1 I2]. cbn [fst snd] in *. rewrite show_fields_cons. split; [constructor; assumption|].
    constructor; [apply name_ok; exact L|]. constructor; [apply sym_ok; reflexivity|]. apply Forall_app. split; [exact H2|].
    constructor; [apply sym_ok; reflexivity|exact I2].
Qed.

Lemma shown_body k fs : type_ok (sym k) -> Forall type_ok (show_fields fs) -> Forall type_ok (sym k :: sym "{" :: show_fields fs ++ [sym "}"]).
Proof.
  intros K F. constructor; [exact K|]. constructor; [apply sym_ok; reflexivity|]. apply Forall_app. split; [exact F|]. constructor; [apply sym_ok; reflexivity|constructor].
Qed.

Fixpoint nameable_shown (t : ty) (H : nameable t) {struct H} : shown t.
Proof.
  destruct H as [|p| |ts N F|fs N F|cs N F].
  - split; [constructor|]. repeat (constructor; [apply sym_ok; reflexivity|]). constructor.
  - split; [constructor|]. constructor; [destruct p; apply sym_ok; reflexivity|constructor].
  - split; [constructor|]. constructor; [apply sym_ok; reflexivity|constructor].
  - assert (Q : Forall shown ts).
    { clear N. induction F as [|t ts H F IH]; constructor; [exact (nameable_shown t H)|exact IH]. }
    destruct (shown_types ts N Q) as [I1 I2]. split; [exact (Is_tuple _ _ I1)|]. change (Forall type_ok (sym "(" :: show_types ts ++ [sym ")"])).
    constructor; [apply sym_ok; reflexivity|]. apply Forall_app. split; [exact I2|]. constructor; [apply sym_ok; reflexivity|constructor].
  - assert (Q : Forall (fun f => proper_label (fst f) /\ shown (snd f)) fs).
    { clear N. induction F as [|f fs H F IH]; constructor; [split; [exact (proj1 H)|destruct H as [_ H]; exact (nameable_shown _ H)]|exact IH]. }
    destruct (shown_fields fs N Q) as [I1 I2]. split; [exact (Is_struct _ _ [] I1 (or_introl eq_refl))|]. apply (shown_body "struct"); [apply sym_ok; reflexivity|exact I2].
  - assert (Q : Forall (fun f => proper_label (fst f) /\ shown (snd f)) cs).
    { clear N. induction F as [|f fs H F IH]; constructor; [split; [exact (proj1 H)|destruct H as [_ H]; exact (nameable_shown _ H)]|exact IH]. }
    destruct (shown_fields cs N Q) as [I1 I2]. split; [exact (Is_enum _ _ [] I1 (or_introl eq_refl))|]. apply (shown_body "enum"); [apply sym_ok; reflexivity|exact I2].
Qed.

Theorem shown_parse t : nameable t -> parse_type (text_of (show_type t)) = Ret (Ok t).
Proof.
  intros N. destruct (nameable_shown t N) as [I F]. apply type_parse_grammar. exists (show_type t). split; [exact (type_text_lexes _ F)|exact I].
Qed.

Lemma is_type_nameable :
  (forall w t, is_type w t -> Forall type_ok w -> nameable t) /\
  (forall w ts, is_types w ts -> Forall type_ok w -> ts <> [] /\ Forall nameable ts) /\
  (forall w fs, is_fields w fs -> Forall type_ok w -> fs <> [] /\ Forall (fun f => proper_label (fst f) /\ nameable (snd f)) fs).
Proof.
  apply is_type_all.
  - constructor.
  - constructor.
  - constructor.
  - intros l ts _ IH F. apply Forall_inv_tail, Forall_app in F as [F _]. destruct (IH F). constructor; assumption.
  - intros l fs c _ IH _ F. apply Forall_inv_tail, Forall_inv_tail, Forall_app in F as [F _]. destruct (IH F). constructor; assumption.
  - intros l fs c _ IH _ F. apply Forall_inv_tail, Forall_inv_tail, Forall_app in F as [F _]. destruct (IH F). constructor; assumption.
  - intros l t _ IH F. split; [discriminate|]. constructor; [exact (IH F)|constructor].
  - intros l t l' ts _ IH _ IH' F. apply Forall_app in F as [F1 F2]. apply Forall_inv_tail in F2. destruct (IH' F2). split; [discriminate|].
    constructor; [exact (IH F1)|assumption].
  - intros a l t _ IH F. split; [discriminate|]. constructor; [|constructor]. pose proof (Forall_inv_tail (Forall_inv_tail F)) as F2. apply Forall_inv in F.
    split; [exact (proj1 (name_ok a) F)|exact (IH F2)].
  - intros a l t l' fs _ IH _ IH' F. pose proof (Forall_inv_tail (Forall_inv_tail F)) as F2. apply Forall_app in F2 as [F2 F3]. apply Forall_inv_tail in F3.
    apply Forall_inv in F. destruct (IH' F3). split; [discriminate|]. constructor; [split; [exact (proj1 (name_ok a) F)|exact (IH F2)]|assumption].
Qed.

Theorem parsed_nameable s t : parse_type s = Ret (Ok t) -> nameable t.
Proof. intros H. apply type_parse_grammar in H as (toks & L & I). exact (proj1 is_type_nameable _ _ I (lexed_type_ok _ _ _ L)). Qed.

Theorem type_image t : (exists s, parse_type s = Ret (Ok t)) <-> nameable t.
Proof. split; [intros (s & H); exact (parsed_nameable s t H)|intros N; exists (text_of (show_type t)); exact (shown_parse t N)]. Qed.

(** White space and a comma before the closing brace do not matter. *)
Theorem spelled_parse s toks t : type_lexes s toks [] -> is_type toks t -> parse_type s = Ret (Ok t).
Proof. intros L I. apply type_parse_grammar. eauto. Qed.

Lemma is_types_end l ts : is_types l ts -> exists l0 x, l = l0 ++ [x] /\ x <> sym ",".
Proof.
  intros H. assert (K : (forall w t, is_type w t -> exists l0 x, w = l0 ++ [x] /\ x <> sym ",") /\
    (forall w ts, is_types w ts -> exists l0 x, w = l0 ++ [x] /\ x <> sym ",") /\ (forall w fs, is_fields w fs -> True)).
  { apply is_type_all; try exact (fun _ _ _ _ => I); try solve [intros; exact I].
    - exists [sym "("], (sym ")"). split; [reflexivity|discriminate].
    - intros p. exists [], (sym (prim_name p)). split; [reflexivity|]. destruct p; discriminate.
    - exists [], (sym "string"). split; [reflexivity|discriminate].
    - intros l0 ts0 _ _. exists (sym "(" :: l0), (sym ")"). split; [reflexivity|discriminate].
    - intros l0 fs c _ _ _. exists (sym "struct" :: sym "{" :: l0 ++ c), (sym "}"). split; [cbn [app]; rewrite <- app_assoc; reflexivity|discriminate].
    - intros l0 fs c _ _ _. exists (sym "enum" :: sym "{" :: l0 ++ c), (sym "}"). split; [cbn [app]; rewrite <- app_assoc; reflexivity|discriminate].
    - intros l0 t _ H0. exact H0.
    - intros l0 t l' ts0 _ _ _ (l1 & x & -> & N). exists (l0 ++ sym "," :: l1), x. split; [rewrite <- app_assoc; reflexivity|exact N]. }
  exact (proj1 (proj2 K) l ts H).
Qed.

(** No type is a tuple with a comma before the parenthesis. *)
Theorem tuple_comma_rejected l t : ~ is_type (sym "(" :: l ++ [sym ","; sym ")"]) t.
Proof.
  intros H. remember (sym "(" :: l ++ [sym ","; sym ")"]) as w eqn:E. destruct H as [|p| |l0 ts I|l0 fs c I O|l0 fs c I O].
  - destruct l as [|x [|y l]]; discriminate.
  - destruct p; discriminate.
  - discriminate.
  - injection E as E. change [sym ","; sym ")"] with ([sym ","] ++ [sym ")"]) in E. rewrite app_assoc in E. apply app_inj_tail in E as [-> _].
    apply is_types_end in I as (l1 & x & E & N). apply app_inj_tail in E as [_ E]. congruence.
  - discriminate.
  - discriminate.
Qed.

Theorem body_comma k l fs c : k = "struct"%string \/ k = "enum"%string -> is_fields l fs -> optional_comma c ->
  is_type (sym k :: sym "{" :: l ++ c ++ [sym "}"]) (if String.eqb k "struct" then TStruct fs else TEnum fs).
Proof. intros [->| ->] I O; [exact (Is_struct _ _ _ I O)|exact (Is_enum _ _ _ I O)]. Qed.
