(** * What the errors of the parser of types mean *)

From Coq Require Import Strings.String.
From Verif Require SqlViable.
From Verif Require Import Base StrModel JsonModel LexModel LexSpec LexProofs LrModel LrSpec LrProofs LrViable TypesModel TypeTables SqlParseModel
  SqlWords SqlLexProofs SqlShow SqlShowProofs TypeParseModel TypeGrammar TypeLexProofs TypeParseProofs TypeParsed.
Local Open Scope nat_scope.
Local Open Scope list_scope.

(** ** A word for every terminal *)

Definition filler (t : nat) : str :=
  match nth_error type_terminals t with
  | Some n => if String.eqb n "INT" then JsonModel.lit "1" else if String.eqb n "IDENT" then JsonModel.lit "x" else JsonModel.lit n
  | None => []
  end.

Lemma fillers_lexed :
  map (fun t => lex type_patterns (length (filler t)) 0 (filler t)) (seq 0 25) =
  map (fun t => ([(t, filler t)], None)) (seq 0 25).
Proof. vm_compute. reflexivity. Qed.

Lemma filler_ok t : t < 25 -> type_ok (t, filler t).
Proof.
  intros L. pose proof (SqlViable.map_same _ _ _ t fillers_lexed) as F. cbv beta zeta in F.
  assert (I : In t (seq 0 25)) by (apply in_seq; lia). specialize (F I). apply type_lex_correct, lexed_type_ok in F. exact (Forall_inv F).
Qed.

(** ** Beginnings of types *)

Notation viable := (viable type_grammar 11 type_cert filler).

Lemma viable_begins l : Forall type_ok l -> viable l -> type_begins l.
Proof.
  intros F (v & t & Fi & D).
  assert (Fv : Forall type_ok v).
  { unfold filled in Fi. rewrite Forall_forall in *. intros [a w] I. destruct (Fi _ I) as [L E]. cbn [fst snd] in *. subst w. exact (filler_ok a L). }
  assert (Fa : Forall type_ok (l ++ v)) by (apply Forall_app; auto).
  pose proof (type_text_lexes _ Fa) as L. pose proof (lexed_lexical _ _ _ L) as Ff.
  destruct (proj1 type_tree_means _ _ _ D Ff) as (v' & _ & G). cbn [means meant] in G. destruct G as (x & _ & G). exists (text_of (l ++ v)), v, x. split; [exact L|exact G].
Qed.

Lemma is_type_derives toks t : is_type toks t -> exists tr, derives type_grammar (NT 11) tr toks.
Proof. intros H. apply is_type_tree in H as (tr & D & _). eauto. Qed.

Lemma type_begins_before l l' : type_begins (l ++ l') -> type_begins l.
Proof. intros (s & more & st & H). rewrite <- app_assoc in H. exists s, (l' ++ more), st. exact H. Qed.

(** The answers of the machine. *)
Lemma drive_means s toks r a : type_lexes s toks r ->
  drive type_sym type_shift type_build (type_tables type_grammar) (type_fuel toks) [0] [] toks = Some (Ret a) ->
  match a with
  | Accepted _ => exists st, is_type toks st
  | UnrecognizedToken t _ => exists l l', toks = l ++ t :: l' /\ type_begins l /\ ~ type_begins (l ++ [t])
  | UnrecognizedEof _ => type_begins toks /\ ~ exists st, is_type toks st
  | ExtraToken _ => False
  end.
Proof.
  intros Lx E. pose proof (lexed_type_ok _ _ _ Lx) as Ok1. pose proof (lexed_lexical _ _ _ Lx) as F. pose proof (lexical_valid _ F) as V.
  destruct (type_drive_total _ _ _ Lx) as (a' & E' & A1 & A2). rewrite E in E'. injection E' as <-.
  destruct (lr_correct (type_tables type_grammar) type_grammar 11 type_cert type_tables_checked toks (type_fuel toks) V (le_n _)) as (b & Eb & _).
  pose proof (run_translates (type_tables type_grammar) type_grammar 11 type_cert type_tables_checked type_sym type_shift type_build lexical type_evaluates (type_fuel toks)
    0 [] [] [] [] toks (stack_nil _ _ _) (Forall2_nil _) V F) as RT.
  rewrite Eb, E in RT. pose proof (lr_errors (type_tables type_grammar) type_grammar 11 type_cert type_order type_tables_checked type_tables_useful filler toks _ b V Eb) as Er.
  destruct b as [v|t ex|ex|t]; cbn [translate] in RT.
  - destruct a as [v'|t ex|ex|t]; try (destruct (eval _ _ _ _); discriminate). destruct (A1 _ eq_refl) as (st & ->). exists st. now apply A2.
  - injection RT as ->. destruct Er as (l & l' & -> & Vi & No). exists l, l'. split; [reflexivity|].
    apply Forall_app in Ok1 as [O1 O2]. split; [exact (viable_begins l O1 Vi)|].
    intros (s' & more & st & Lx' & G). destruct (is_type_derives _ _ G) as (t' & D). rewrite <- app_assoc in D. refine (No more t' _ D).
    pose proof (lexical_valid _ (lexed_lexical _ _ _ Lx')) as V'. apply Forall_app in V' as [_ V']. exact V'.
  - injection RT as ->. split; [exact (viable_begins toks Ok1 Er)|]. intros (st & G). apply A2 in G. discriminate.
  - destruct Er.
Qed.

(** ** Reading a text to its end *)

Lemma lexes_app s a r b r' : type_lexes s a r -> type_lexes r b r' -> type_lexes s (a ++ b) r'.
Proof.
  intros H H'. induction H as [s|c s toks r B _ IH|t w s toks r N W M P _ IH]; [exact H'|exact (L_blank _ _ _ c s _ r' B (IH H'))|].
  exact (L_word _ _ _ t w s _ r' N W M P (IH H')).
Qed.

Lemma lexes_split a : forall s b r, type_lexes s (a ++ b) r -> exists r', type_lexes s a r' /\ type_lexes r' b r.
Proof.
  intros s b r H. remember (a ++ b) as l eqn:E. revert a E. induction H as [s|c s toks r B _ IH|t w s toks r N W M P H IH]; intros a E.
  - symmetry in E. apply app_eq_nil in E as [-> ->]. exists s. split; constructor.
  - destruct (IH a E) as (r' & H1 & H2). exists r'. split; [exact (L_blank _ _ _ c s _ r' B H1)|exact H2].
  - destruct a as [|x a]; cbn [app] in E.
    + subst b. exists (w ++ s). split; [constructor|]. exact (L_word _ _ _ t w s _ r N W M P H).
    + injection E as <- E. destruct (IH a E) as (r' & H1 & H2). exists r'. split; [exact (L_word _ _ _ t w s _ r' N W M P H1)|exact H2].
Qed.

Definition finished (r : str) : Prop := r = [] \/ stuck type_word is_whitespace r.

Lemma lexes_on r : exists toks r', type_lexes r toks r' /\ finished r'.
Proof.
  destruct (lex type_patterns (length r) 0 r) as [ts [p|]] eqn:E.
  - destruct (type_lex_place r ts p E) as (r' & L & St & _). exists (ts), r'. split; [exact L|right; exact St].
  - exists (ts), []. split; [exact (proj1 (type_lex_correct r ts) E)|left; reflexivity].
Qed.

Lemma lexes_prefix s l r toks r' : type_lexes s l r -> type_lexes s toks r' -> finished r' -> exists l', toks = l ++ l'.
Proof.
  intros H H' F. destruct (lexes_on r) as (l' & r2 & H2 & F2). exists l'. pose proof (lexes_app _ _ _ _ _ H H2) as H3.
  destruct (type_lex_unique s toks r' (l ++ l') r2 H' F H3 F2) as [E _]. exact E.
Qed.

(** ** The errors *)

Lemma parse_type_fails s e : parse_type s = Ret (Err e) -> type_fails s e.
Proof.
  unfold parse_type. intros H. destruct (lex type_patterns (size s) 0 s) as [ts [p|]] eqn:E.
  - destruct (type_lex_place s ts p E) as (r & R & St & P). destruct (type_drive_total _ _ _ R) as (a & D & _).
    destruct (drive_before_drive _ _ _ _ _ _ _ _ _ D) as (o & B & O). rewrite B in H. pose proof (drive_before_same _ _ _ _ _ _ _ _ _ _ D B) as Sm.
    pose proof (drive_means _ _ _ _ R D) as M. destruct o as [b|].
    + destruct Sm as [-> Sm]. destruct a as [v|t ex|ex|t]; cbn [answer_result] in H; try discriminate; try contradiction; injection H as <-.
      destruct M as (l & l' & El & Bl & Nl). rewrite El in R. exists l.
        replace (l ++ t :: l') with ((l ++ [t]) ++ l') in R by (rewrite <- app_assoc; reflexivity). apply lexes_split in R as (r' & R & _). exists r'. auto.
    + injection H as <-. exists (ts), r. repeat (split; [assumption|]). destruct a as [v|t ex|ex|t]; try contradiction; [|exact (proj1 M)].
      destruct M as (st & G). exists (text_of (ts)), [], st. rewrite app_nil_r. split; [apply type_text_lexes; exact (lexed_type_ok _ _ _ R)|exact G].
  - pose proof (proj1 (type_lex_correct s ts) E) as R. destruct (type_drive_total _ _ _ R) as (a & D & A1 & _). rewrite D in H.
    pose proof (drive_means _ _ _ _ R D) as M. destruct a as [v|t ex|ex|t]; cbn [answer_result] in H; try contradiction.
    + destruct (A1 v eq_refl) as (st & ->). discriminate.
    + injection H as <-. destruct M as (l & l' & El & Bl & Nl). rewrite El in R. exists l.
      replace (l ++ t :: l') with ((l ++ [t]) ++ l') in R by (rewrite <- app_assoc; reflexivity). apply lexes_split in R as (r' & R & _). exists r'. auto.
    + injection H as <-. exists (ts). destruct M. auto.
Qed.

Lemma fails_with s toks r e : type_lexes s toks r -> finished r -> type_fails s e ->
  match e with
  | UnrecognizedTokenErr t => exists l l', toks = l ++ t :: l' /\ type_begins l /\ ~ type_begins (l ++ [t])
  | UnrecognizedEofErr => type_begins toks /\ r = [] /\ ~ exists st, is_type toks st
  | InvalidTokenAt p => type_begins toks /\ r <> [] /\ p = length s - length r
  | ExtraTokenErr _ => False
  end.
Proof.
  intros L F H. destruct e as [p|t| |t]; cbn [type_fails] in H.
  - destruct H as (toks' & r' & L' & St & -> & B). destruct (type_lex_unique _ _ _ _ _ L F L' (or_intror St)) as [<- <-].
    repeat split; [exact B|]. intros ->. exact St.
  - destruct H as (l & r' & L' & B & N). destruct (lexes_prefix _ _ _ _ _ L' L F) as (l' & ->). exists l, l'. rewrite <- app_assoc. auto.
  - destruct H as (toks' & L' & B & N). destruct (type_lex_unique _ _ _ _ _ L F L' (or_introl eq_refl)) as [<- ->]. auto.
  - exact H.
Qed.

(** The first word that cannot follow is one. *)
Lemma first_only l t l' m u m' : l ++ t :: l' = m ++ u :: m' -> type_begins l -> ~ type_begins (l ++ [t]) -> type_begins m -> ~ type_begins (m ++ [u]) -> t = u.
Proof.
  intros E B N B' N'. revert m E B' N'. 
  assert (K : forall (l m : list LrModel.token) t l' u m', l ++ t :: l' = m ++ u :: m' ->
    (l = m /\ t = u) \/ (exists x, m = l ++ t :: x) \/ (exists x, l = m ++ u :: x)).
  { clear. induction l as [|a l IH]; intros [|b m] t l' u m' E; cbn [app] in E; injection E as E1 E2; subst; auto.
    - right. left. exists m. reflexivity.
    - right. right. exists l. reflexivity.
    - destruct (IH m t l' u m' E2) as [[-> ->]|[[x ->]|[x ->]]]; [auto|right; left; exists x; reflexivity|right; right; exists x; reflexivity]. }
  intros m E B' N'. destruct (K l m t l' u m' E) as [[_ Q]|[[x ->]|[x ->]]]; [exact Q| |].
  - exfalso. apply N. apply (type_begins_before _ x). rewrite <- app_assoc. exact B'.
  - exfalso. apply N'. apply (type_begins_before _ x). rewrite <- app_assoc. exact B.
Qed.

Lemma fails_once s e e' : type_fails s e -> type_fails s e' -> e = e'.
Proof.
  intros H H'. destruct (lexes_on s) as (toks & r & L & F). apply (fails_with _ _ _ _ L F) in H. apply (fails_with _ _ _ _ L F) in H'.
  destruct e as [p|t| |t], e' as [p'|t'| |t']; try contradiction; try reflexivity.
  - destruct H as (_ & _ & ->), H' as (_ & _ & ->). reflexivity.
  - destruct H as (B & _), H' as (l & l' & -> & _ & N). destruct N. apply (type_begins_before _ l'). rewrite <- app_assoc. exact B.
  - destruct H as (_ & N & _), H' as (_ & E & _). contradiction.
  - destruct H' as (B & _), H as (l & l' & -> & _ & N). destruct N. apply (type_begins_before _ l'). rewrite <- app_assoc. exact B.
  - destruct H as (l & l' & E & B & N), H' as (m & m' & E' & B' & N'). rewrite E in E'. f_equal. exact (first_only _ _ _ _ _ _ E' B N B' N').
  - destruct H' as (B & _), H as (l & l' & -> & _ & N). destruct N. apply (type_begins_before _ l'). rewrite <- app_assoc. exact B.
  - destruct H' as (_ & N & _), H as (_ & E & _). contradiction.
  - destruct H as (B & _), H' as (l & l' & -> & _ & N). destruct N. apply (type_begins_before _ l'). rewrite <- app_assoc. exact B.
Qed.

Theorem parse_type_errors s e : parse_type s = Ret (Err e) <-> type_fails s e.
Proof.
  split; [apply parse_type_fails|]. intros H. destruct (parse_type_correct s) as ([st|e'] & E & C).
  - exfalso. destruct (proj1 (C st) eq_refl) as (toks & L & G). apply (fails_with _ _ _ _ L (or_introl eq_refl)) in H.
    assert (B : type_begins toks) by (exists s, [], st; rewrite app_nil_r; auto). destruct e as [p|t| |t].
    + destruct H as (_ & N & _). destruct (N eq_refl).
    + destruct H as (l & l' & -> & _ & N). destruct N. apply (type_begins_before _ l'). rewrite <- app_assoc. exact B.
    + destruct H as (_ & _ & N). destruct N. eauto.
    + exact H.
  - rewrite E. rewrite (fails_once s e e' H (parse_type_fails s e' E)). reflexivity.
Qed.
