(** * What the errors of the SQL parser mean *)

From Coq Require Import Strings.String.
From Verif Require Import Base StrModel JsonModel SqlNameModel SqlModel LexModel LexSpec LexProofs LrModel LrSpec LrProofs LrViable SqlTables SqlCert
  SqlActions SqlGrammar SqlTrees SqlParseProofs SqlWords SqlParseModel SqlLexProofs SqlParseTop SqlErrorSpec SqlCheckSpec SqlCheckProofs SqlShow SqlShowProofs.
Local Open Scope nat_scope.
Local Open Scope list_scope.

(** Productions that show, one after the other, that every phrase has words. *)
Definition sql_order : list nat := [
    0; 2; 4; 6; 8; 9; 28; 58; 70; 73; 80; 81; 82; 89; 91; 95; 102; 108; 111; 123; 130; 131; 132; 134; 143;
    145; 151; 152; 154; 156; 157; 170; 190; 191; 193; 201; 202; 210; 222; 20; 26; 65; 66; 118; 162; 168; 180;
    184; 186; 195; 197; 223; 11; 29; 31; 33; 56; 76; 85; 121; 199; 15; 126; 71; 74; 77; 104; 137; 139; 207;
    208; 217; 218; 220; 17; 18; 24; 68; 128; 213].

Lemma sql_tables_useful : check_useful sql_tables productions 61 sql_cert sql_order = true.
Proof. vm_compute. reflexivity. Qed.

(** ** A word for every terminal *)

Definition filler (t : nat) : str :=
  match nth_error terminals t with
  | Some n =>
      if String.eqb n "ID" then JsonModel.lit "x" else if String.eqb n "HEX_LIT" then JsonModel.lit "0x1"
      else if String.eqb n "NUMERIC_LIT_1" then JsonModel.lit "1" else if String.eqb n "NUMERIC_LIT_2" then JsonModel.lit ".1"
      else if String.eqb n "STRING_LIT" then JsonModel.lit "''" else JsonModel.lit n
  | None => []
  end.

Lemma fillers_lexed :
  map (fun t => let r := lex sql_patterns (length (filler t)) 0 (filler t) in (sql_tokens (fst r), snd r)) (seq 0 83) =
  map (fun t => ([(t, filler t)], None)) (seq 0 83).
Proof. vm_compute. reflexivity. Qed.

Lemma map_same {A B} (f g : A -> B) l x : map f l = map g l -> In x l -> f x = g x.
Proof. induction l as [|y l IH]; [intros _ []|]. intros E [->|I]; injection E as E1 E2; auto. Qed.

Lemma filler_ok t : t < 83 -> tok_ok (t, filler t).
Proof.
  intros L. pose proof (map_same _ _ _ t fillers_lexed) as F. cbv beta zeta in F.
  assert (I : In t (seq 0 83)) by (apply in_seq; lia). specialize (F I). injection F as F1 F2.
  destruct (lex sql_patterns (length (filler t)) 0 (filler t)) as [ts e] eqn:E. cbn [fst snd] in *. subst e.
  apply (proj1 (sql_lex_correct (filler t))) in E. apply lexed_tok_ok in E. rewrite F1 in E. exact (Forall_inv E).
Qed.

(** ** Beginnings of statements *)

Notation viable := (viable productions 61 sql_cert filler).

Lemma viable_begins l : Forall tok_ok l -> viable l -> begins l.
Proof.
  intros F (v & t & Fi & D).
  assert (Fv : Forall tok_ok v).
  { unfold filled in Fi. rewrite Forall_forall in *. intros [a w] I. destruct (Fi _ I) as [L E]. cbn [fst snd] in *. subst w. exact (filler_ok a L). }
  assert (Fa : Forall tok_ok (l ++ v)) by (apply Forall_app; auto).
  pose proof (text_lexes _ Fa) as L. destruct (lexed_fine _ _ _ L) as [_ Ff].
  destruct (proj1 tree_ok _ _ _ D Ff) as (x & _ & G). exists (text_of (l ++ v)), v, x. split; [exact L|exact G].
Qed.

Lemma gram_derives s toks r st : sql_lexes s toks r -> gram GSqlStatement toks st -> exists t, derives productions (NT 61) t toks.
Proof.
  intros L G. destruct (lexed_fine _ _ _ L) as [_ F]. destruct (proj1 gram_realized GSqlStatement toks st G F) as (t & D & _). eauto.
Qed.

Lemma begins_before l l' : begins (l ++ l') -> begins l.
Proof. intros (s & more & st & H). rewrite <- app_assoc in H. exists s, (l' ++ more), st. exact H. Qed.

(** The answers of the machine. *)
Lemma drive_means s toks r a : sql_lexes s toks r ->
  drive sym sql_shift sql_build sql_tables (sql_fuel toks) [0] [] toks = Some (Ret a) ->
  match a with
  | Accepted _ => exists st, gram GSqlStatement toks st
  | UnrecognizedToken t _ => exists l l', toks = l ++ t :: l' /\ begins l /\ ~ begins (l ++ [t])
  | UnrecognizedEof _ => begins toks /\ ~ exists st, gram GSqlStatement toks st
  | ExtraToken _ => False
  end.
Proof.
  intros Lx E. pose proof (lexed_tok_ok _ _ _ Lx) as Ok1. destruct (lexed_fine _ _ _ Lx) as [V F].
  destruct (sql_drive_total _ _ _ Lx) as (a' & E' & A1 & A2). rewrite E in E'. injection E' as <-.
  destruct (lr_correct sql_tables productions 61 sql_cert sql_tables_checked toks (sql_fuel toks) V (le_n _)) as (b & Eb & _).
  pose proof (run_translates sql_tables productions 61 sql_cert sql_tables_checked sym sql_shift sql_build fine trees_evaluate (sql_fuel toks)
    0 [] [] [] [] toks (stack_nil _ _ _) (Forall2_nil _) V F) as RT.
  rewrite Eb, E in RT. pose proof (lr_errors sql_tables productions 61 sql_cert sql_order sql_tables_checked sql_tables_useful filler toks _ b V Eb) as Er.
  destruct b as [v|t ex|ex|t]; cbn [translate] in RT.
  - destruct a as [v'|t ex|ex|t]; try (destruct (eval _ _ _ _); discriminate). destruct (A1 _ eq_refl) as (st & ->). exists st. now apply A2.
  - injection RT as ->. destruct Er as (l & l' & -> & Vi & No). exists l, l'. split; [reflexivity|].
    apply Forall_app in Ok1 as [O1 O2]. split; [exact (viable_begins l O1 Vi)|].
    intros (s' & more & st & Lx' & G). destruct (gram_derives _ _ _ _ Lx' G) as (t' & D). rewrite <- app_assoc in D. refine (No more t' _ D).
    destruct (lexed_fine _ _ _ Lx') as [V' _]. apply Forall_app in V' as [_ V']. exact V'.
  - injection RT as ->. split; [exact (viable_begins toks Ok1 Er)|]. intros (st & G). apply A2 in G. discriminate.
  - destruct Er.
Qed.

(** ** Reading a text to its end *)

Lemma lexes_app s a r b r' : sql_lexes s a r -> sql_lexes r b r' -> sql_lexes s (a ++ b) r'.
Proof.
  intros H H'. induction H as [s|c s toks r B _ IH|t w s toks r N W M P _ IH]; [exact H'|exact (L_blank _ _ _ c s _ r' B (IH H'))|].
  exact (L_word _ _ _ t w s _ r' N W M P (IH H')).
Qed.

Lemma lexes_split a : forall s b r, sql_lexes s (a ++ b) r -> exists r', sql_lexes s a r' /\ sql_lexes r' b r.
Proof.
  intros s b r H. remember (a ++ b) as l eqn:E. revert a E. induction H as [s|c s toks r B _ IH|t w s toks r N W M P H IH]; intros a E.
  - symmetry in E. apply app_eq_nil in E as [-> ->]. exists s. split; constructor.
  - destruct (IH a E) as (r' & H1 & H2). exists r'. split; [exact (L_blank _ _ _ c s _ r' B H1)|exact H2].
  - destruct a as [|x a]; cbn [app] in E.
    + subst b. exists (w ++ s). split; [constructor|]. exact (L_word _ _ _ t w s _ r N W M P H).
    + injection E as <- E. destruct (IH a E) as (r' & H1 & H2). exists r'. split; [exact (L_word _ _ _ t w s _ r' N W M P H1)|exact H2].
Qed.

Definition finished (r : str) : Prop := r = [] \/ stuck sql_word is_whitespace r.

Lemma lexes_on r : exists toks r', sql_lexes r toks r' /\ finished r'.
Proof.
  destruct (lex sql_patterns (length r) 0 r) as [ts [p|]] eqn:E.
  - destruct (sql_lex_place r ts p E) as (r' & L & St & _). exists (sql_tokens ts), r'. split; [exact L|right; exact St].
  - exists (sql_tokens ts), []. split; [exact (proj1 (sql_lex_correct r) ts E)|left; reflexivity].
Qed.

Lemma lexes_prefix s l r toks r' : sql_lexes s l r -> sql_lexes s toks r' -> finished r' -> exists l', toks = l ++ l'.
Proof.
  intros H H' F. destruct (lexes_on r) as (l' & r2 & H2 & F2). exists l'. pose proof (lexes_app _ _ _ _ _ H H2) as H3.
  destruct (sql_lex_unique s toks r' (l ++ l') r2 H' F H3 F2) as [E _]. exact E.
Qed.

(** ** The errors *)

Lemma parse_sql_fails s e : parse_sql s = Ret (Err e) -> fails s e.
Proof.
  unfold parse_sql. intros H. destruct (lex sql_patterns (size s) 0 s) as [ts [p|]] eqn:E.
  - destruct (sql_lex_place s ts p E) as (r & R & St & P). destruct (sql_drive_total _ _ _ R) as (a & D & _).
    destruct (drive_before_drive _ _ _ _ _ _ _ _ _ D) as (o & B & O). rewrite B in H. pose proof (drive_before_same _ _ _ _ _ _ _ _ _ _ D B) as Sm.
    pose proof (drive_means _ _ _ _ R D) as M. destruct o as [b|].
    + destruct Sm as [-> Sm]. destruct a as [v|t ex|ex|t]; cbn [answer_result] in H; try discriminate; try contradiction; injection H as <-.
      destruct M as (l & l' & El & Bl & Nl). rewrite El in R. exists l.
        replace (l ++ t :: l') with ((l ++ [t]) ++ l') in R by (rewrite <- app_assoc; reflexivity). apply lexes_split in R as (r' & R & _). exists r'. auto.
    + injection H as <-. exists (sql_tokens ts), r. repeat (split; [assumption|]). destruct a as [v|t ex|ex|t]; try contradiction; [|exact (proj1 M)].
      destruct M as (st & G). exists (text_of (sql_tokens ts)), [], st. rewrite app_nil_r. split; [apply text_lexes; exact (lexed_tok_ok _ _ _ R)|exact G].
  - pose proof (proj1 (sql_lex_correct s) ts E) as R. destruct (sql_drive_total _ _ _ R) as (a & D & A1 & _). rewrite D in H.
    pose proof (drive_means _ _ _ _ R D) as M. destruct a as [v|t ex|ex|t]; cbn [answer_result] in H; try contradiction.
    + destruct (A1 v eq_refl) as (st & ->). discriminate.
    + injection H as <-. destruct M as (l & l' & El & Bl & Nl). rewrite El in R. exists l.
      replace (l ++ t :: l') with ((l ++ [t]) ++ l') in R by (rewrite <- app_assoc; reflexivity). apply lexes_split in R as (r' & R & _). exists r'. auto.
    + injection H as <-. exists (sql_tokens ts). destruct M. auto.
Qed.

Lemma fails_with s toks r e : sql_lexes s toks r -> finished r -> fails s e ->
  match e with
  | UnrecognizedTokenErr t => exists l l', toks = l ++ t :: l' /\ begins l /\ ~ begins (l ++ [t])
  | UnrecognizedEofErr => begins toks /\ r = [] /\ ~ exists st, gram GSqlStatement toks st
  | InvalidTokenAt p => begins toks /\ r <> [] /\ p = length s - length r
  | ExtraTokenErr _ => False
  end.
Proof.
  intros L F H. destruct e as [p|t| |t]; cbn [fails] in H.
  - destruct H as (toks' & r' & L' & St & -> & B). destruct (sql_lex_unique _ _ _ _ _ L F L' (or_intror St)) as [<- <-].
    repeat split; [exact B|]. intros ->. exact St.
  - destruct H as (l & r' & L' & B & N). destruct (lexes_prefix _ _ _ _ _ L' L F) as (l' & ->). exists l, l'. rewrite <- app_assoc. auto.
  - destruct H as (toks' & L' & B & N). destruct (sql_lex_unique _ _ _ _ _ L F L' (or_introl eq_refl)) as [<- ->]. auto.
  - exact H.
Qed.

(** The first word that cannot follow is one. *)
Lemma first_only l t l' m u m' : l ++ t :: l' = m ++ u :: m' -> begins l -> ~ begins (l ++ [t]) -> begins m -> ~ begins (m ++ [u]) -> t = u.
Proof.
  intros E B N B' N'. revert m E B' N'. 
  assert (K : forall (l m : list LrModel.token) t l' u m', l ++ t :: l' = m ++ u :: m' ->
    (l = m /\ t = u) \/ (exists x, m = l ++ t :: x) \/ (exists x, l = m ++ u :: x)).
  { clear. induction l as [|a l IH]; intros [|b m] t l' u m' E; cbn [app] in E; injection E as E1 E2; subst; auto.
    - right. left. exists m. reflexivity.
    - right. right. exists l. reflexivity.
    - destruct (IH m t l' u m' E2) as [[-> ->]|[[x ->]|[x ->]]]; [auto|right; left; exists x; reflexivity|right; right; exists x; reflexivity]. }
  intros m E B' N'. destruct (K l m t l' u m' E) as [[_ Q]|[[x ->]|[x ->]]]; [exact Q| |].
  - exfalso. apply N. apply (begins_before _ x). rewrite <- app_assoc. exact B'.
  - exfalso. apply N'. apply (begins_before _ x). rewrite <- app_assoc. exact B.
Qed.

Lemma fails_once s e e' : fails s e -> fails s e' -> e = e'.
Proof.
  intros H H'. destruct (lexes_on s) as (toks & r & L & F). apply (fails_with _ _ _ _ L F) in H. apply (fails_with _ _ _ _ L F) in H'.
  destruct e as [p|t| |t], e' as [p'|t'| |t']; try contradiction; try reflexivity.
  - destruct H as (_ & _ & ->), H' as (_ & _ & ->). reflexivity.
  - destruct H as (B & _), H' as (l & l' & -> & _ & N). destruct N. apply (begins_before _ l'). rewrite <- app_assoc. exact B.
  - destruct H as (_ & N & _), H' as (_ & E & _). contradiction.
  - destruct H' as (B & _), H as (l & l' & -> & _ & N). destruct N. apply (begins_before _ l'). rewrite <- app_assoc. exact B.
  - destruct H as (l & l' & E & B & N), H' as (m & m' & E' & B' & N'). rewrite E in E'. f_equal. exact (first_only _ _ _ _ _ _ E' B N B' N').
  - destruct H' as (B & _), H as (l & l' & -> & _ & N). destruct N. apply (begins_before _ l'). rewrite <- app_assoc. exact B.
  - destruct H' as (_ & N & _), H as (_ & E & _). contradiction.
  - destruct H as (B & _), H' as (l & l' & -> & _ & N). destruct N. apply (begins_before _ l'). rewrite <- app_assoc. exact B.
Qed.

Theorem parse_sql_errors s e : parse_sql s = Ret (Err e) <-> fails s e.
Proof.
  split; [apply parse_sql_fails|]. intros H. destruct (parse_sql_correct s) as ([st|e'] & E & C).
  - exfalso. destruct (proj1 (C st) eq_refl) as (toks & L & G). apply (fails_with _ _ _ _ L (or_introl eq_refl)) in H.
    assert (B : begins toks) by (exists s, [], st; rewrite app_nil_r; auto). destruct e as [p|t| |t].
    + destruct H as (_ & N & _). destruct (N eq_refl).
    + destruct H as (l & l' & -> & _ & N). destruct N. apply (begins_before _ l'). rewrite <- app_assoc. exact B.
    + destruct H as (_ & _ & N). destruct N. eauto.
    + exact H.
  - rewrite E. rewrite (fails_once s e e' H (parse_sql_fails s e' E)). reflexivity.
Qed.
