(** * Texts with other strings and numerals *)

From Coq Require Import Strings.String Lia ZifyBool.
From Verif Require Import Base StrModel JsonModel SqlNameModel SqlModel SqlInd LrModel LexSpec LexModel SqlGrammar SqlWords SqlParseModel
  SqlTrees SqlParseProofs SqlLexProofs SqlParsed SqlSpaceSpec SqlSpaceProofs SqlFillSpec SqlFillProofs.
Local Open Scope list_scope.

(** ** The same strings and numerals *)

Section Same.
Notation i := (fun s : str => s).

Lemma map_all {A} (f : A -> A) l : Forall (fun a => f a = a) l -> map f l = l.
Proof. induction 1 as [|a l E _ IH]; cbn; congruence. Qed.

Lemma option_all {A} (f : A -> A) o : if_some (fun a => f a = a) o -> option_map f o = o.
Proof. destruct o; cbn; congruence. Qed.

Lemma put_same_all :
  (forall e, put_expr i i e = e) /\ (forall s, put_spec i i s = s) /\ (forall s, put_select i i s = s) /\ (forall c, put_cte i i c = c) /\
  (forall e, put_set i i e = e) /\ (forall t, put_table i i t = t) /\ (forall c, put_columns i i c = c) /\ (forall c, put_column i i c = c).
Proof.
  apply sql_induction.
  - intros l. refine (f_equal ELiteral _). destruct l; reflexivity.
  - intros q. reflexivity.
  - intros es H. exact (f_equal ETuple (map_all _ es H)).
  - intros s H. exact (f_equal ESelect H).
  - intros op e H. exact (f_equal (EUnary op) H).
  - intros op l r H H0. exact (f_equal2 (EBinary op) H H0).
  - intros op l r H H0. exact (f_equal2 (ECompare op) H H0).
  - intros e s H H0. exact (f_equal2 EIn H H0).
  - intros e lo hi H H0 H1. exact (f_equal3 EBetween H H0 H1).
  - intros o whens els H H0 H1. refine (f_equal3 ECase (option_all _ o H) (map_all _ whens _) (option_all _ els H1)).
    eapply Forall_impl; [|exact H0]. intros [a b] [A B]. exact (f_equal2 pair A B).
  - intros s H. exact (f_equal SpSelect H).
  - intros es H. exact (f_equal SpList (map_all _ es H)).
  - intros q. reflexivity.
  - intros common e order lim H H0 H1 H2.
    refine (f_equal4 Select (map_all _ common H) H0 (map_all _ order _) (option_all _ lim _)).
    + eapply Forall_impl; [|exact H1]. intros [[a b] d] A. exact (f_equal (fun y => (y, b, d)) A).
    + destruct lim as [[a b]|]; [|exact I]. destruct H2 as [A B]. exact (f_equal2 pair A (option_all _ b B)).
  - intros id columns q H. exact (f_equal (Cte id columns) H).
  - intros rows H. refine (f_equal SValues (map_all _ rows _)). eapply Forall_impl; [|exact H]. intros l. apply map_all.
  - intros mode columns from wh group H H0 H1 H2.
    refine (f_equal4 (SQuery mode) H (map_all _ from H0) (option_all _ wh H1) (option_all _ group _)).
    destruct group as [[a b]|]; [|exact I]. destruct H2 as [A B]. exact (f_equal2 pair (map_all _ a A) (option_all _ b B)).
  - intros op l r H H0. exact (f_equal2 (SOp op) H H0).
  - intros q alias. reflexivity.
  - intros s alias H. exact (f_equal (fun y => TSelect y alias) H).
  - intros l r op c H H0 H1. destruct c as [e|cs].
    + exact (f_equal3 (fun l r e => TJoin l r op (JExpr e)) H H0 H1).
    + exact (f_equal2 (fun l r => TJoin l r op (JColumns cs)) H H0).
  - reflexivity.
  - intros l H. exact (f_equal RList (map_all _ l H)).
  - intros n. reflexivity.
  - intros e rename H. exact (f_equal (fun y => RExpr y rename) H).
Qed.

Lemma put_same_statement s : put_statement i i s = s.
Proof.
  destruct put_same_all as (E & _ & Sl & _ & X & _). destruct s as [s|[t c x]|[t w]|[t l w]].
  - exact (f_equal StSelect (Sl s)).
  - exact (f_equal (fun y => StInsert {| i_table := t; i_columns := c; i_source := y |}) (X x)).
  - refine (f_equal (fun y => StDelete {| d_table := t; d_where := y |}) (option_all _ w _)). destruct w; cbn [if_some]; [apply E|exact I].
  - assert (A : option_map (put_expr i i) w = w) by (apply option_all; destruct w; cbn [if_some]; [apply E|exact I]).
    assert (B : map (fun a : list name * expr => (fst a, put_expr i i (snd a))) l = l).
    { apply map_all, Forall_forall. intros [a b] _. cbn [fst snd]. rewrite E. reflexivity. }
    exact (f_equal2 (fun y z => StUpdate {| u_table := t; u_assignments := y; u_where := z |}) B A).
Qed.

Lemma put_same s : put i i s = s.
Proof.
  destruct s as [s|s|q path|q]; [exact (f_equal SqlStatement (put_same_statement s))|exact (f_equal SqlExplain (put_same_statement s))|reflexivity..].
Qed.
End Same.

(** ** Texts *)

Lemma kinds_only w w' n v : gram n w v -> map fst w = map fst w' -> Forall2 (fun a b => fst a = terminal "ID" -> snd a = snd b) w w' ->
  exists v', gram n w' v'.
Proof.
  intros G E F. destruct (proj1 (gram_meet (fun _ => []) (fun _ => []) (fun _ => []) (fun _ => [])) _ _ _ G w') as (v' & G' & _); [|eauto].
  revert E. induction F as [|a b w w' H F IH]; intros E; constructor; cbn in E; injection E as E1 E2.
  - repeat split; auto.
  - clear IH G. revert E2. induction F as [|a' b' w w' H' F IH]; intros E2; constructor; cbn in E2; injection E2 as E3 E4; [repeat split; auto|exact (IH E4)].
Qed.

Lemma put_texts g h s s' toks toks' st' : sql_lexes s toks [] -> sql_lexes s' toks' [] -> Forall2 (put_word g h) toks toks' ->
  (parse_sql s' = Ret (Ok st') <-> exists st, parse_sql s = Ret (Ok st) /\ st' = put g h st).
Proof.
  intros L L' F.
  assert (K : forall st, gram GSqlStatement toks st -> gram GSqlStatement toks' (put g h st)).
  { intros st G. destruct (proj1 (gram_meet g h (fun s => s) (fun s => s)) _ _ _ G toks') as (v & G' & M).
    - clear - F. induction F as [|a b w w' (A & B & C & D) F IH]; constructor; [|exact IH]. 
      split; [exact A|]. split; [exact B|]. split; [intros I; symmetry; exact (C I)|intros I; symmetry; exact (D I)].
    - change (put g h st = put (fun s => s) (fun s => s) v) in M. rewrite put_same in M. rewrite M. exact G'. }
  split.
  - intros H. apply parse_grammar in H as (toks0 & L0 & G).
    destruct (sql_lex_unique s' toks' [] toks0 [] L' (or_introl eq_refl) L0 (or_introl eq_refl)) as [<- _].
    destruct (kinds_only toks' toks _ _ G) as [st G'].
    + clear - F. induction F as [|a b w w' (A & _) F IH]; cbn; congruence.
    + clear - F. induction F as [|a b w w' (A & B & _) F IH]; constructor; [|exact IH]. intros I. symmetry. apply B. congruence.
    + exists st. split; [apply parse_grammar; eauto|]. exact (grammar_unique _ _ _ _ _ L' G (K _ G')).
  - intros (st & H & ->). apply parse_grammar in H as (toks0 & L0 & G). apply parse_grammar.
    destruct (sql_lex_unique s toks [] toks0 [] L (or_introl eq_refl) L0 (or_introl eq_refl)) as [<- _]. eauto.
Qed.

Lemma front_prefix (u b w r : str) : u ++ b = w ++ r -> (List.length u <= List.length w)%nat -> exists z, w = u ++ z.
Proof.
  revert w. induction u as [|c u IH]; intros w E L; [exists w; reflexivity|]. destruct w as [|d w]; [cbn in L; lia|].
  cbn [app] in E. injection E as -> E. cbn in L. destruct (IH w E) as [z ->]; [lia|]. exists z. reflexivity.
Qed.

Lemma quote_kind t w : sql_word t w -> hd_error w = Some 39%Z -> t = terminal "STRING_LIT".
Proof.
  intros H E. apply word_pattern in H as (j & J & -> & H). pose proof (W_head _ _ J H) as (c & w' & -> & K). injection E as ->.
  destruct (head_kind _ _ J K) as [_ N]. destruct (Nat.lt_ge_cases j 5) as [C|C].
  - destruct j as [|[|[|[|[|j]]]]]; [reflexivity|..|lia]; cbn [head_ok] in K; unfold digit, name_start in K; lia.
  - destruct (N C). congruence.
Qed.

Lemma quotes_word y : Forall quotable y -> sql_word (terminal "STRING_LIT") (in_quotes y).
Proof. intros F. exists "STRING_LIT"%string. split; [reflexivity|]. exists y. auto. Qed.

Lemma quotes_lex y b : Forall quotable y -> sql_lexes (in_quotes y ++ b) [(terminal "STRING_LIT", in_quotes y)] b.
Proof.
  intros F. apply L_word; [discriminate|exact (quotes_word y F)| | |constructor].
  - intros t w rest E H. destruct (Nat.le_gt_cases (List.length w) (List.length (in_quotes y))) as [|G]; [assumption|exfalso].
    assert (hd_error w = Some 39%Z) as Hd.
    { destruct w as [|c w]; [cbn in G; lia|]. injection E as <- _. reflexivity. }
    destruct (front_prefix (in_quotes y) b w rest E) as [z Z]; [lia|].
    assert (z = []) as ->. { apply (quoted_prefix (in_quotes y) z); [exists y; auto|rewrite <- Z; exact (quoted_word t w H Hd)]. }
    rewrite Z, app_nil_r in G. lia.
  - intros t H. left. exact (quote_kind t _ H eq_refl).
Qed.

Lemma inside_quotes y : removelast (tl (in_quotes y)) = y.
Proof. unfold in_quotes. cbn [tl]. apply removelast_last. Qed.

Lemma quoted_inside w : sql_word (terminal "STRING_LIT") w -> w = in_quotes (removelast (tl w)).
Proof.
  intros (n & E & H). assert (n = "STRING_LIT"%string) as -> by (vm_compute in E; injection E as <-; reflexivity).
  destruct H as (cs & -> & _). change (39 :: cs ++ [39])%Z with (in_quotes cs). rewrite inside_quotes. reflexivity.
Qed.

Lemma other_words m y toks : Forall (fun t => sql_word (fst t) (snd t)) toks -> ~ In (terminal "STRING_LIT", in_quotes m) toks ->
  Forall2 (put_word (instead m y) (fun s => s)) toks toks.
Proof.
  induction 1 as [|[t w] toks H _ IH]; intros N; constructor.
  - split; [reflexivity|]. split; [reflexivity|]. split; [|reflexivity]. cbn [fst snd] in *. intros ->. unfold instead.
    destruct (list_eq_dec Z.eq_dec _ m) as [E|E]; [|reflexivity]. exfalso. apply N. left. rewrite (quoted_inside w H), E. reflexivity.
  - apply IH. intros I. apply N. right. exact I.
Qed.

Lemma words_of s toks r : sql_lexes s toks r -> Forall (fun t => sql_word (fst t) (snd t)) toks.
Proof. intros H. eapply Forall_impl; [|exact (lexes_words _ _ _ H)]. intros t [A _]. exact A. Qed.

Lemma quote_place (a : str) y b : open_place a (in_quotes y ++ b).
Proof. right. right. right. exists 39%Z, (y ++ [39%Z] ++ b). split; [unfold in_quotes; cbn [app]; rewrite <- app_assoc; reflexivity|]. right. cbn. tauto. Qed.

Lemma bound_string a b m y before st' : Forall quotable m -> Forall quotable y ->
  sql_lexes (a ++ in_quotes m ++ b) before (in_quotes m ++ b) ->
  (forall after, sql_lexes b after [] -> ~ In (terminal "STRING_LIT", in_quotes m) (before ++ after)) ->
  (parse_sql (a ++ in_quotes y ++ b) = Ret (Ok st') <->
   exists st, parse_sql (a ++ in_quotes m ++ b) = Ret (Ok st) /\ st' = put (instead m y) (fun s => s) st).
Proof.
  intros Qm Qy L N.
  pose proof (lexes_exchange _ _ _ L a (in_quotes y ++ b) eq_refl (quote_place a y b)) as L'.
  assert (K : forall after, sql_lexes b after [] ->
    (parse_sql (a ++ in_quotes y ++ b) = Ret (Ok st') <->
     exists st, parse_sql (a ++ in_quotes m ++ b) = Ret (Ok st) /\ st' = put (instead m y) (fun s => s) st)).
  { intros after B. apply (put_texts _ _ _ _ (before ++ [(terminal "STRING_LIT", in_quotes m)] ++ after) (before ++ [(terminal "STRING_LIT", in_quotes y)] ++ after)).
    - apply (lexes_app _ _ _ L). apply (lexes_app _ _ _ (quotes_lex m b Qm)). exact B.
    - apply (lexes_app _ _ _ L'). apply (lexes_app _ _ _ (quotes_lex y b Qy)). exact B.
    - specialize (N after B). rewrite in_app_iff in N. apply Forall2_app; [|apply Forall2_app].
      + apply other_words; [exact (words_of _ _ _ L)|tauto].
      + constructor; [|constructor]. split; [reflexivity|]. split; [intros E; discriminate E|]. split.
        * intros _. cbn [snd]. rewrite !inside_quotes. unfold instead. destruct (list_eq_dec Z.eq_dec m m); [reflexivity|contradiction].
        * intros I. exfalso. vm_compute in I. intuition discriminate.
      + apply other_words; [exact (words_of _ _ _ B)|tauto]. }
  assert (R : forall z before', Forall quotable z -> sql_lexes (a ++ in_quotes z ++ b) before' (in_quotes z ++ b) ->
    forall st, parse_sql (a ++ in_quotes z ++ b) = Ret (Ok st) -> exists after, sql_lexes b after []).
  { intros z before' Qz Lz st H. apply parse_grammar in H as (toks & T & _).
    destruct (lexes_rest _ _ _ Lz _ T) as (t1 & _ & T1). destruct (lexes_rest _ _ _ (quotes_lex z b Qz) _ T1) as (t2 & _ & T2). eauto. }
  split.
  - intros H. destruct (R y _ Qy L' _ H) as [after B]. exact (proj1 (K after B) H).
  - intros (st & H & E). destruct (R m _ Qm L _ H) as [after B]. apply (K after B). eauto.
Qed.
