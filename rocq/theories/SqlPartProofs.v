(** * Proofs about parts of SQL statements *)

From Coq Require Import Strings.String Lia.
From Verif Require Import Base StrModel JsonModel SqlNameModel SqlModel LrModel LexSpec LexModel SqlGrammar SqlWords SqlParseModel
  SqlTrees SqlParseProofs SqlLexProofs SqlParsed SqlSpaceSpec SqlSpaceProofs SqlPartSpec.
Local Open Scope list_scope.

Scheme part_rec := Minimality for part Sort Prop with part_all_rec := Minimality for part_all Sort Prop.
Combined Scheme part_both from part_rec, part_all_rec.

(** ** Putting something else in the place of a part *)

Lemma gram_all_any A l w f v : gram_all A l w f v ->
  exists k : arrows l A -> A, v = k f /\ forall f', gram_all A l w f' (k f').
Proof.
  induction 1 as [A v|A n l w w' x f v G _ (k & E & K)].
  - exists (fun f => f). split; [reflexivity|]. intros f'. constructor.
  - exists (fun f' => k (f' x)). split; [exact E|]. intros f'. eapply G_cons; [exact G|apply K].
Qed.

Lemma part_plug :
  (forall n w v X u x a b, part n w v X u x a b -> w = a ++ u ++ b /\ gram X u x /\
     exists c : ty X -> ty n, v = c x /\ forall u' x', gram X u' x' -> gram n (a ++ u' ++ b) (c x')) /\
  (forall A l w f v X u x a b, part_all A l w f v X u x a b -> w = a ++ u ++ b /\ gram X u x /\
     exists c : ty X -> A, v = c x /\ forall u' x', gram X u' x' -> gram_all A l (a ++ u' ++ b) f (c x')).
Proof.
  apply part_both.
  - intros n w v G. split; [cbn; rewrite app_nil_r; reflexivity|]. split; [exact G|].
    exists (fun x => x). split; [reflexivity|]. intros u' x' G'. cbn. rewrite app_nil_r. exact G'.
  - intros n l f w v X u x a b I _ (E & G & c & Ev & C). split; [exact E|]. split; [exact G|].
    exists c. split; [exact Ev|]. intros u' x' G'. exact (G_rule n l f _ _ I (C u' x' G')).
  - intros A n l w w' y f v X u x a b _ (E & G & c & Ev & C) R. split; [rewrite E, <- !app_assoc; reflexivity|]. split; [exact G|].
    destruct (gram_all_any _ _ _ _ _ R) as (k & Ek & K).
    exists (fun x' => k (f (c x'))). split; [rewrite Ek, Ev; reflexivity|]. intros u' x' G'.
    rewrite !app_assoc, <- (app_assoc a u' b). apply G_cons with (c x'); [exact (C u' x' G')|apply K].
  - intros A n l w w' y f v X u x a b Gy _ (E & G & c & Ev & C). split; [rewrite E, <- !app_assoc; reflexivity|]. split; [exact G|].
    exists c. split; [exact Ev|]. intros u' x' G'. rewrite <- app_assoc. apply G_cons with y; [exact Gy|exact (C u' x' G')].
Qed.

Lemma part_exchanged w st X u x a b : part GSqlStatement w st X u x a b ->
  w = a ++ u ++ b /\ gram X u x /\
  exists c : ty X -> sql_statement, st = c x /\
    forall s' u' x', gram X u' x' -> sql_lexes s' (a ++ u' ++ b) [] -> parse_sql s' = Ret (Ok (c x')).
Proof.
  intros P. destruct (proj1 part_plug _ _ _ _ _ _ _ _ P) as (Ew & G & c & E & C). split; [exact Ew|]. split; [exact G|]. exists c. split; [exact E|].
  intros s' u' x' G' L. apply parse_grammar. exists (a ++ u' ++ b). split; [exact L|exact (C u' x' G')].
Qed.

(** ** Parentheses *)

Lemma chain n m (f : ty m -> ty n) w v : In ([m] ==> f) (rules n) -> gram m w v -> gram n w (f v).
Proof.
  intros I G. apply (G_rule n [m] f); [exact I|]. rewrite <- (app_nil_r w). eapply G_cons; [exact G|constructor].
Qed.

Lemma up_unary w e : gram GPrimaryExpression w e -> gram GUnaryExpression w e.
Proof. apply (chain GUnaryExpression GPrimaryExpression (fun e => e)). cbn; auto. Qed.
Lemma up_mult w e : gram GUnaryExpression w e -> gram GMultiplicativeExpression w e.
Proof. apply (chain GMultiplicativeExpression GUnaryExpression (fun e => e)). cbn; auto. Qed.
Lemma up_add w e : gram GMultiplicativeExpression w e -> gram GAdditiveExpression w e.
Proof. apply (chain GAdditiveExpression GMultiplicativeExpression (fun e => e)). cbn; auto. Qed.
Lemma up_compare w e : gram GAdditiveExpression w e -> gram GComparativeExpression w e.
Proof. apply (chain GComparativeExpression GAdditiveExpression (fun e => e)). cbn; auto. Qed.
Lemma up_complex w e : gram GComparativeExpression w e -> gram GComplexExpression w e.
Proof. apply (chain GComplexExpression GComparativeExpression (fun e => e)). cbn; auto. Qed.
Lemma up_not w e : gram GComplexExpression w e -> gram GNotExpression w e.
Proof. apply (chain GNotExpression GComplexExpression (fun e => e)). cbn; auto. Qed.
Lemma up_and w e : gram GNotExpression w e -> gram GAndExpression w e.
Proof. apply (chain GAndExpression GNotExpression (fun e => e)). cbn; auto. Qed.
Lemma up_or w e : gram GAndExpression w e -> gram GOrExpression w e.
Proof. apply (chain GOrExpression GAndExpression (fun e => e)). cbn; auto. Qed.
Lemma up_expr w e : gram GOrExpression w e -> gram GExpression w e.
Proof. apply (chain GExpression GOrExpression (fun e => e)). cbn; auto. Qed.

Lemma paren_primary p q w e : gram GExpression w e -> gram GPrimaryExpression ((terminal "(", p) :: w ++ [(terminal ")", q)]) e.
Proof.
  intros G. apply (G_rule GPrimaryExpression [Tok "("; GExpressionList; Tok ")"] (fun _ l _ => match l with [e] => e | _ => ETuple l end));
    [left; reflexivity|].
  apply (G_cons (ty GPrimaryExpression) (Tok "(") _ [_] (w ++ [_]) p); [apply G_tok|].
  apply (G_cons (ty GPrimaryExpression) GExpressionList _ w [_] [e]).
  - apply (chain GExpressionList GExpression (fun e => [e])); [cbn; auto|exact G].
  - apply (G_cons (ty GPrimaryExpression) (Tok ")") _ [_] [] q); [apply G_tok|]. constructor.
Qed.

#[local] Hint Resolve up_unary up_mult up_add up_compare up_complex up_not up_and up_or up_expr paren_primary : up.

Lemma paren_kind X p q w v : In X expression_kinds -> gram X w v -> gram X ((terminal "(", p) :: w ++ [(terminal ")", q)]) v.
Proof.
  intros I G. cbn [expression_kinds In] in I.
  repeat (destruct I as [<-|I]; [eauto 20 with up nocore|]). destruct I.
Qed.

Lemma parens_added w st X u x a b s' p q : part GSqlStatement w st X u x a b -> In X expression_kinds ->
  sql_lexes s' (a ++ ((terminal "(", p) :: u ++ [(terminal ")", q)]) ++ b) [] -> parse_sql s' = Ret (Ok st).
Proof.
  intros P I L. destruct (part_exchanged _ _ _ _ _ _ _ P) as (_ & G & c & -> & C).
  exact (C s' _ _ (paren_kind X p q u x I G) L).
Qed.

(** Parentheses around what is tight enough are not needed. *)
Lemma parens_removed w st X u x a b s' p q : part GSqlStatement w st X ((terminal "(", p) :: u ++ [(terminal ")", q)]) x a b ->
  gram X u x -> sql_lexes s' (a ++ u ++ b) [] -> parse_sql s' = Ret (Ok st).
Proof.
  intros P G L. destruct (part_exchanged _ _ _ _ _ _ _ P) as (_ & _ & c & -> & C). exact (C s' u x G L).
Qed.

(** ** Cut texts *)

Lemma at_most_cut n s s2 : at_most sql_word n (s ++ s2) -> at_most sql_word n s.
Proof. intros A t w rest E W. apply (A t w (rest ++ s2)); [rewrite E, <- app_assoc; reflexivity|exact W]. Qed.

Lemma lexes_cut s toks r : sql_lexes s toks r -> forall a u, toks = a ++ u -> exists s1 s2, s = s1 ++ s2 /\ sql_lexes s1 a [].
Proof.
  induction 1 as [s|c s toks r B R IH|t w s toks r N Hw A U R IH]; intros a u E.
  - symmetry in E. apply app_eq_nil in E as [-> ->]. exists [], s. split; [reflexivity|constructor].
  - destruct (IH a u E) as (s1 & s2 & -> & L). exists (c :: s1), s2. split; [reflexivity|]. apply L_blank; assumption.
  - destruct a as [|t0 a].
    + exists [], (w ++ s). split; [reflexivity|constructor].
    + injection E as <- E. destruct (IH a u E) as (s1 & s2 & -> & L). exists (w ++ s1), s2. split; [apply app_assoc|].
      apply L_word; try assumption. rewrite app_assoc in A. exact (at_most_cut _ _ _ A).
Qed.

Lemma end_cut s w st Y u y a : sql_lexes s w [] -> part GSqlStatement w st (Opt Y) u y a [] ->
  exists (c : option (ty Y) -> sql_statement) s1 s2, st = c y /\ s = s1 ++ s2 /\ parse_sql s1 = Ret (Ok (c None)).
Proof.
  intros L P. destruct (part_exchanged _ _ _ _ _ _ _ P) as (E & _ & c & Ec & C). rewrite app_nil_r in E.
  destruct (lexes_cut _ _ _ L a u E) as (s1 & s2 & Es & L1). exists c, s1, s2. split; [exact Ec|]. split; [exact Es|].
  apply (C s1 [] None); [|rewrite app_nil_r; exact L1]. apply (G_rule (Opt Y) [] None); [left; reflexivity|constructor].
Qed.

Lemma gram_open n w v : gram n w v -> (forall s, n <> Tok s) ->
  exists r : rule n, In r (rules n) /\ gram_all (ty n) (projT1 r) w (projT2 r) v.
Proof.
  intros G. destruct G as [s text|n l f w v I G]; intros N; [destruct (N s eq_refl)|].
  exists (l ==> f). split; [exact I|exact G].
Qed.

Definition opened (A : Type) (l : list nonterm) (w : list token) (v : A) : arrows l A -> Prop :=
  match l as l0 return arrows l0 A -> Prop with
  | [] => fun f => w = [] /\ v = f
  | n :: l' => fun f => exists w1 w2 x, w = w1 ++ w2 /\ gram n w1 x /\ gram_all A l' w2 (f x) v
  end.

Lemma gram_all_open A l w f v : gram_all A l w f v -> opened A l w v f.
Proof. intros G. destruct G as [A v|A n l w w' x f v G R]; cbn [opened]; [auto|]. exists w, w', x. auto. Qed.

Ltac open_phrase H :=
  let r := fresh "r" in let I := fresh "I" in let G := fresh "G" in
  destruct (gram_open _ _ _ H) as (r & I & G); [discriminate|]; cbn [rules In] in I.
Ltac open_parts G :=
  cbn [projT1 projT2] in G; apply gram_all_open in G; cbn [opened] in G.

(** The last part of a right side, when it may be left out. *)
Lemma gram_none Y : gram (Opt Y) [] None.
Proof. apply (G_rule (Opt Y) [] None); [left; reflexivity|constructor]. Qed.

Lemma delete_where w t e : gram GDeleteStatement w {| d_table := t; d_where := Some e |} ->
  exists a u, w = a ++ u /\ gram GDeleteStatement a {| d_table := t; d_where := None |}.
Proof.
  intros H. open_phrase H. destruct I as [<-|[]].
  open_parts G. destruct G as (w1 & w2 & x1 & -> & G1 & G).
  open_parts G. destruct G as (w3 & w4 & x3 & -> & G3 & G).
  open_parts G. destruct G as (w5 & w6 & x5 & -> & G5 & G).
  open_parts G. destruct G as (w7 & w8 & x7 & -> & G7 & G).
  open_parts G. destruct G as (w9 & w0 & x9 & -> & G9 & G).
  open_parts G. destruct G as [-> E]. injection E as -> <-.
  exists (w1 ++ w3 ++ w5 ++ w7 ++ [] ++ []), w9. split; [rewrite !app_nil_r, <- !app_assoc; reflexivity|].
  eapply (G_nth GDeleteStatement 0); [reflexivity|]. cbn [projT1 projT2]. repeat (eapply G_cons; [first [eassumption|apply gram_none]|]). constructor.
Qed.

Lemma update_where w t l e : gram GUpdateStatement w {| u_table := t; u_assignments := l; u_where := Some e |} ->
  exists a u, w = a ++ u /\ gram GUpdateStatement a {| u_table := t; u_assignments := l; u_where := None |}.
Proof.
  intros H. open_phrase H. destruct I as [<-|[]].
  open_parts G. destruct G as (w1 & w2 & x1 & -> & G1 & G).
  open_parts G. destruct G as (w3 & w4 & x3 & -> & G3 & G).
  open_parts G. destruct G as (w5 & w6 & x5 & -> & G5 & G).
  open_parts G. destruct G as (w7 & w8 & x7 & -> & G7 & G).
  open_parts G. destruct G as (w9 & w0 & x9 & -> & G9 & G).
  open_parts G. destruct G as (wa & wb & xa & -> & Ga & G).
  open_parts G. destruct G as [-> E]. injection E as -> -> <-.
  exists (w1 ++ w3 ++ w5 ++ w7 ++ w9 ++ [] ++ []), wa. split; [rewrite !app_nil_r, <- !app_assoc; reflexivity|].
  eapply (G_nth GUpdateStatement 0); [reflexivity|]. cbn [projT1 projT2]. repeat (eapply G_cons; [first [eassumption|apply gram_none]|]). constructor.
Qed.

Lemma changes_where w e st st' : changes e st st' -> gram GStatement w st ->
  exists a u, w = a ++ u /\ gram GStatement a st'.
Proof.
  intros Ch H. open_phrase H. destruct I as [<-|[<-|[<-|[<-|[]]]]];
    (open_parts G; destruct G as (w1 & w2 & x1 & -> & G1 & G); open_parts G; destruct G as [-> ->]); inversion Ch; subst; clear Ch.
  - destruct (delete_where _ _ _ G1) as (a & u & -> & G'). exists a, u. split; [apply app_nil_r|].
    apply (chain GStatement GDeleteStatement StDelete); [cbn; auto|exact G'].
  - destruct (update_where _ _ _ _ G1) as (a & u & -> & G'). exists a, u. split; [apply app_nil_r|].
    apply (chain GStatement GUpdateStatement StUpdate); [cbn; auto|exact G'].
Qed.

Lemma where_cut s e st st' : changes e st st' -> parse_sql s = Ret (Ok (SqlStatement st)) ->
  exists s1 s2, s = s1 ++ s2 /\ parse_sql s1 = Ret (Ok (SqlStatement st')).
Proof.
  intros Ch E. apply parse_grammar in E as (toks & L & H).
  open_phrase H. destruct I as [<-|[<-|[<-|[<-|[]]]]].
  - open_parts G. destruct G as (w1 & w2 & x1 & -> & G1 & G). open_parts G. destruct G as [-> E]. injection E as <-.
    destruct (changes_where _ _ _ _ Ch G1) as (a & u & -> & G').
    rewrite app_nil_r in L. destruct (lexes_cut _ _ _ L a u eq_refl) as (s1 & s2 & -> & L1). exists s1, s2. split; [reflexivity|].
    apply parse_grammar. exists a. split; [exact L1|]. apply (chain GSqlStatement GStatement SqlStatement); [cbn; auto|exact G'].
  - exfalso. open_parts G. destruct G as (w1 & w2 & x1 & -> & _ & G). open_parts G. destruct G as (w3 & w4 & x3 & -> & _ & G).
    open_parts G. destruct G as (w5 & w6 & x5 & -> & _ & G). open_parts G. destruct G as [_ E]. discriminate E.
  - exfalso. open_parts G. destruct G as (w1 & w2 & x1 & -> & _ & G). open_parts G. destruct G as [_ E]. discriminate E.
  - exfalso. open_parts G. destruct G as (w1 & w2 & x1 & -> & _ & G). open_parts G. destruct G as [_ E]. discriminate E.
Qed.
