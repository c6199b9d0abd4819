(** * The parser of types accepts the types *)

From Coq Require Import Strings.String.
From Verif Require Import Base StrModel JsonModel LexModel LexSpec LexProofs LrModel LrSpec LrProofs LrViable TypesModel TypeTables SqlParseModel
  SqlWords SqlLexProofs SqlShow SqlShowProofs TypeParseModel TypeGrammar TypeLexProofs.
Local Open Scope nat_scope.
Local Open Scope list_scope.

Scheme derives_mind := Minimality for derives Sort Prop with derives_all_mind := Minimality for derives_all Sort Prop.
Combined Scheme derives_both from derives_mind, derives_all_mind.
Scheme is_type_mind := Minimality for is_type Sort Prop with is_types_mind := Minimality for is_types Sort Prop
  with is_fields_mind := Minimality for is_fields Sort Prop.
Combined Scheme is_type_all from is_type_mind, is_types_mind, is_fields_mind.

Lemma type_tables_checked : check_tables (type_tables type_grammar) type_grammar 11 type_cert = true.
Proof. vm_compute. reflexivity. Qed.
Lemma type_tables_useful : check_useful (type_tables type_grammar) type_grammar 11 type_cert type_order = true.
Proof. vm_compute. reflexivity. Qed.

Notation type_derives := (derives type_grammar).
Notation type_eval := (eval type_sym type_shift type_build).
Notation type_eval_all := (eval_all type_sym type_shift type_build).

(** ** From trees to types *)

Definition is_field (w : list LrModel.token) (f : str * ty) : Prop := exists l, w = name_of (fst f) :: sym ":" :: l /\ is_type l (snd f).

(** The values a phrase may have. *)
Definition meant (n : nat) (w : list LrModel.token) (v : type_sym) : Prop :=
  match n with
  | 0 => v = YNone /\ optional_comma w
  | 1 | 4 | 9 | 11 => exists t, v = YType t /\ is_type w t
  | 2 | 5 => exists f, v = YField f /\ is_field w f
  | 3 | 6 => exists fs, v = YFields fs /\ is_fields w fs
  | 7 => exists a, v = YLabel a /\ w = [name_of a]
  | 8 => exists p, v = YPrim p /\ w = [sym (prim_name p)]
  | 10 => exists ts, v = YTypes ts /\ is_type w (TTuple ts)
  | 12 => exists ts, v = YTypes ts /\ is_types w ts
  | 13 => v = YUnit /\ w = [sym "("; sym ")"]
  | _ => False
  end.

Definition means (X : symbol) (w : list LrModel.token) (v : type_sym) : Prop :=
  match X with T n => exists s, v = YText s /\ w = [(n, s)] | NT n => meant n w v end.

Inductive means_all : list symbol -> list LrModel.token -> list type_sym -> Prop :=
| Means_nil : means_all [] [] []
| Means_cons X w v Xs ws vs : means X w v -> means_all Xs ws vs -> means_all (X :: Xs) (w ++ ws) (v :: vs).

Lemma fine_sym s w : existsb (String.eqb s) (skipn 2 type_terminals) = true -> type_word (type_terminal s) w -> (type_terminal s, w) = sym s.
Proof.
  intros M (n & N & H). apply existsb_exists in M as (s' & I & E). apply String.eqb_eq in E. subst s'.
  assert (K : forallb (fun s => match nth_error type_terminals (type_terminal s) with Some n => String.eqb n s && negb (String.eqb n "INT") && negb (String.eqb n "IDENT") | None => false end) (skipn 2 type_terminals) = true) by reflexivity.
  rewrite forallb_forall in K. specialize (K s I). rewrite N in K. apply andb_prop in K as [K K3]. apply andb_prop in K as [K1 K2].
  apply String.eqb_eq in K1. subst n. unfold type_shape in H. apply negb_true_iff in K2, K3. rewrite K2, K3 in H. subst w. reflexivity.
Qed.

Lemma is_types_snoc l ts l' t : is_types l ts -> is_type l' t -> is_types (l ++ sym "," :: l') (ts ++ [t]).
Proof.
  intros H H'. induction H as [l t0 H|l t0 l0 ts H _ IH]; cbn [app].
  - apply More_types; [exact H|]. constructor. exact H'.
  - rewrite <- app_assoc. cbn [app]. apply More_types; [exact H|exact IH].
Qed.

Lemma is_fields_snoc l fs l' f : is_fields l fs -> is_field l' f -> is_fields (l ++ sym "," :: l') (fs ++ [f]).
Proof.
  intros H (l2 & -> & H'). destruct f as [a' t']. cbn [fst snd] in *. induction H as [a l t0 H|a l t0 l0 fs H _ IH]; cbn [app].
  - apply More_fields; [exact H|]. constructor. exact H'.
  - rewrite <- app_assoc. cbn [app]. apply More_fields; [exact H|exact IH].
Qed.

Ltac cases n p := match n with 0 => idtac | S ?m => destruct p as [|p]; [|cases m p] end.

Ltac words := repeat match goal with
  | H : Forall _ (_ ++ _) |- _ => apply Forall_app in H as [? ?]
  | H : Forall _ (_ :: _) |- _ => inversion H; clear H; subst
  end; cbn [fst snd] in *;
  repeat match goal with H : type_word (type_terminal ?s) ?w |- _ => apply (fine_sym s w eq_refl) in H; unfold W in *; try rewrite !H in *; revert H end; intros.

Lemma build_means p lhs rhs w vs : nth_error type_grammar p = Some (lhs, rhs) -> means_all rhs w vs -> Forall (fun t : LrModel.token => type_word (fst t) (snd t)) w ->
  exists v, type_build p vs = Ret v /\ meant lhs w v.
Proof.
  intros N M F. unfold type_build.
  cases 36 p; [..|cbn in N; destruct p; discriminate]; injection N as <- <-;
    repeat match goal with H : means_all _ _ _ |- _ => inversion H; clear H; subst end;
    repeat match goal with H : means _ _ _ |- _ => unfold W in H; cbn [means meant] in H end;
    repeat match goal with H : exists _, _ |- _ => destruct H | H : _ /\ _ |- _ => destruct H end; subst;
    words; repeat rewrite app_nil_r in *; cbn [app] in *;
    (eexists; split; [reflexivity|]; cbn [meant]).
  all: try solve [eexists; split; [reflexivity|]; constructor].
  all: try solve [eauto using is_type, is_types, is_fields, is_types_snoc, is_fields_snoc].
  all: try solve [split; [reflexivity|]; unfold optional_comma; auto].
  all: try solve [eexists; split; [reflexivity|]; eexists; cbn [fst snd]; eauto].
  all: match goal with H : is_field _ ?f |- _ => destruct H as (l & -> & H); destruct f; eexists; split; [reflexivity|]; constructor; exact H end.
Qed.

Notation lexical := (fun t : LrModel.token => type_word (fst t) (snd t)).

Lemma type_tree_means :
  (forall X t w, type_derives X t w -> Forall lexical w -> exists v, type_eval t = Ret v /\ means X w v) /\
  (forall Xs ts w, derives_all type_grammar Xs ts w -> Forall lexical w -> exists vs, type_eval_all ts = Ret vs /\ means_all Xs w vs).
Proof.
  apply derives_both.
  - intros t s _. exists (YText s). split; [reflexivity|]. exists s. auto.
  - intros p lhs rhs ts w N _ IH F. destruct (IH F) as (vs & E & M). destruct (build_means p lhs rhs w vs N M F) as (v & B & V).
    exists v. split; [|exact V]. rewrite eval_node, E. exact B.
  - intros _. exists []. split; [reflexivity|constructor].
  - intros X t w Xs ts ws _ IH _ IH' F. apply Forall_app in F as [F1 F2]. destruct (IH F1) as (v & E & M). destruct (IH' F2) as (vs & E' & M').
    exists (v :: vs). cbn [eval_all]. rewrite E, E'. split; [reflexivity|constructor; assumption].
Qed.

(** ** From types to trees *)

(** A tree with this value. *)
Definition has (n : nat) (w : list LrModel.token) (v : type_sym) : Prop := exists t, type_derives (NT n) t w /\ type_eval t = Ret v.
Definition has_symbol (X : symbol) (w : list LrModel.token) (v : type_sym) : Prop := exists t, type_derives X t w /\ type_eval t = Ret v.
Definition has_all (Xs : list symbol) (w : list LrModel.token) (vs : list type_sym) : Prop :=
  exists ts, derives_all type_grammar Xs ts w /\ type_eval_all ts = Ret vs.

Lemma has_nil : has_all [] [] [].
Proof. exists []. split; [constructor|reflexivity]. Qed.
Lemma has_cons X w v Xs ws vs : has_symbol X w v -> has_all Xs ws vs -> has_all (X :: Xs) (w ++ ws) (v :: vs).
Proof.
  intros (t & D & E) (ts & D' & E'). exists (t :: ts). split; [constructor; assumption|]. cbn [eval_all]. rewrite E, E'. reflexivity.
Qed.
Lemma has_token t s Xs ws vs : has_all Xs ws vs -> has_all (T t :: Xs) ((t, s) :: ws) (YText s :: vs).
Proof. intros H. change ((t, s) :: ws) with ([(t, s)] ++ ws). apply has_cons; [|exact H]. exists (Leaf (t, s)). split; [constructor|reflexivity]. Qed.
Lemma has_one n w v : has n w v -> has_all [NT n] w [v].
Proof. intros H. rewrite <- (app_nil_r w). apply has_cons; [exact H|apply has_nil]. Qed.
Lemma has_node p lhs rhs w vs v : nth_error type_grammar p = Some (lhs, rhs) -> has_all rhs w vs -> type_build p vs = Ret v -> has lhs w v.
Proof. intros N (ts & D & E) B. exists (Node p ts). split; [econstructor; eassumption|]. rewrite eval_node, E. exact B. Qed.

Lemma has_comma c : optional_comma c -> has 0 c YNone.
Proof.
  intros [->| ->]; [apply (has_node 35 0 [] [] [] YNone eq_refl has_nil eq_refl)|].
  apply (has_node 34 0 [W ","] [sym ","] [YText (JsonModel.lit ",")] YNone eq_refl); [|reflexivity]. apply has_token, has_nil.
Qed.

Lemma has_label a : has 7 [name_of a] (YLabel a).
Proof. apply (has_node 33 7 [W "IDENT"] [name_of a] [YText a] (YLabel a) eq_refl); [|reflexivity]. apply has_token, has_nil. Qed.

Definition bodies (lst one pf p1 pn : nat) : Prop :=
  nth_error type_grammar pf = Some (one, [NT 7; W ":"; NT 11]) /\ nth_error type_grammar p1 = Some (lst, [NT one]) /\
  nth_error type_grammar pn = Some (lst, [NT lst; W ","; NT one]) /\
  (forall a b t, type_build pf [YLabel a; YText b; YType t] = Ret (YField (a, t))) /\
  (forall f, type_build p1 [YField f] = Ret (YFields [f])) /\
  (forall fs b f, type_build pn [YFields fs; YText b; YField f] = Ret (YFields (fs ++ [f]))).

Lemma struct_bodies : bodies 6 5 28 26 27.
Proof. repeat split. Qed.
Lemma enum_bodies : bodies 3 2 32 30 31.
Proof. repeat split. Qed.

Section Bodies.
Variables lst one pf p1 pn : nat.
Hypothesis B : bodies lst one pf p1 pn.

Lemma has_field a l t : has 11 l (YType t) -> has one (name_of a :: sym ":" :: l) (YField (a, t)).
Proof.
  intros H. destruct B as (B1 & _ & _ & B4 & _). eapply has_node; [exact B1| |exact (B4 a (JsonModel.lit ":") t)].
  change (name_of a :: sym ":" :: l) with ([name_of a] ++ sym ":" :: l). apply has_cons; [exact (has_label a)|]. apply has_token. apply has_one. exact H.
Qed.

Lemma has_first w f : has one w (YField f) -> has lst w (YFields [f]).
Proof. intros H. destruct B as (_ & B2 & _ & _ & B5 & _). eapply has_node; [exact B2|apply has_one; exact H|apply B5]. Qed.

Lemma has_next w fs w' f : has lst w (YFields fs) -> has one w' (YField f) -> has lst (w ++ sym "," :: w') (YFields (fs ++ [f])).
Proof.
  intros H H'. destruct B as (_ & _ & B3 & _ & _ & B6). eapply has_node; [exact B3| |exact (B6 fs (JsonModel.lit ",") f)].
  apply has_cons; [exact H|]. apply has_token. apply has_one. exact H'.
Qed.
End Bodies.

(** A list, alone or after another one. *)
Definition lists (lst one : nat) (w : list LrModel.token) (fs : list (str * ty)) : Prop :=
  has lst w (YFields fs) /\ forall w0 fs0, has lst w0 (YFields fs0) -> has lst (w0 ++ sym "," :: w) (YFields (fs0 ++ fs)).

Lemma lists_one lst one pf p1 pn a l t : bodies lst one pf p1 pn -> has 11 l (YType t) -> lists lst one (name_of a :: sym ":" :: l) [(a, t)].
Proof.
  intros B H. pose proof (has_field _ _ _ _ _ B a l t H) as K. split; [exact (has_first _ _ _ _ _ B _ _ K)|].
  intros w0 fs0 H0. exact (has_next _ _ _ _ _ B _ _ _ _ H0 K).
Qed.

Lemma lists_more lst one pf p1 pn a l t l' fs : bodies lst one pf p1 pn -> has 11 l (YType t) -> lists lst one l' fs ->
  lists lst one (name_of a :: sym ":" :: l ++ sym "," :: l') ((a, t) :: fs).
Proof.
  intros B H [L1 L2]. pose proof (has_field _ _ _ _ _ B a l t H) as K. split.
  - exact (L2 _ _ (has_first _ _ _ _ _ B _ _ K)).
  - intros w0 fs0 H0. pose proof (L2 _ _ (has_next _ _ _ _ _ B _ _ _ _ H0 K)) as Q. rewrite <- !app_assoc in Q. exact Q.
Qed.

Definition listed (w : list LrModel.token) (ts : list ty) : Prop :=
  has 12 w (YTypes ts) /\ forall w0 ts0, has 12 w0 (YTypes ts0) -> has 12 (w0 ++ sym "," :: w) (YTypes (ts0 ++ ts)).

Lemma listed_first w t : has 11 w (YType t) -> has 12 w (YTypes [t]).
Proof. intros H. eapply (has_node 23); [reflexivity|apply has_one; exact H|reflexivity]. Qed.
Lemma listed_next w ts w' t : has 12 w (YTypes ts) -> has 11 w' (YType t) -> has 12 (w ++ sym "," :: w') (YTypes (ts ++ [t])).
Proof.
  intros H H'. eapply (has_node 24 12 [NT 12; W ","; NT 11] _ [YTypes ts; YText (JsonModel.lit ","); YType t]); [reflexivity| |reflexivity].
  apply has_cons; [exact H|]. apply has_token. apply has_one. exact H'.
Qed.

Lemma is_type_has :
  (forall w t, is_type w t -> has 11 w (YType t)) /\ (forall w ts, is_types w ts -> listed w ts) /\
  (forall w fs, is_fields w fs -> lists 6 5 w fs /\ lists 3 2 w fs).
Proof.
  apply is_type_all.
  - apply (has_node 0 11 [NT 13] _ [YUnit] _ eq_refl); [|reflexivity]. apply has_one.
    apply (has_node 6 13 [W "("; W ")"] _ [YText (JsonModel.lit "("); YText (JsonModel.lit ")")] _ eq_refl); [|reflexivity]. do 2 apply has_token. apply has_nil.
  - intros p. apply (has_node 1 11 [NT 8] _ [YPrim p] _ eq_refl); [|reflexivity]. apply has_one.
    set (n := match p with PBool => 7 | PChar => 8 | PU8 => 9 | PU16 => 10 | PU32 => 11 | PU64 => 12 | PU128 => 13 | PI8 => 14 | PI16 => 15
                     | PI32 => 16 | PI64 => 17 | PI128 => 18 | PF32 => 19 | PF64 => 20 end).
    apply (has_node n 8 [W (prim_name p)] _ [YText (JsonModel.lit (prim_name p))]); [destruct p; reflexivity| |destruct p; reflexivity].
    apply has_token, has_nil.
  - apply (has_node 2 11 [NT 1] _ [YType TString] _ eq_refl); [|reflexivity]. apply has_one.
    apply (has_node 21 1 [W "string"] _ [YText (JsonModel.lit "string")] _ eq_refl); [|reflexivity]. apply has_token, has_nil.
  - intros l ts _ [H _]. apply (has_node 3 11 [NT 10] _ [YTypes ts] _ eq_refl); [|reflexivity]. apply has_one.
    apply (has_node 22 10 [W "("; NT 12; W ")"] _ [YText (JsonModel.lit "("); YTypes ts; YText (JsonModel.lit ")")] _ eq_refl); [|reflexivity].
    apply has_token. apply has_cons; [exact H|]. apply has_token, has_nil.
  - intros l fs c _ [[H _] _] C. apply (has_node 4 11 [NT 9] _ [YType (TStruct fs)] _ eq_refl); [|reflexivity]. apply has_one.
    apply (has_node 25 9 [W "struct"; W "{"; NT 6; NT 0; W "}"] _ [YText (JsonModel.lit "struct"); YText (JsonModel.lit "{"); YFields fs; YNone; YText (JsonModel.lit "}")] _ eq_refl); [|reflexivity].
    do 2 apply has_token. apply has_cons; [exact H|]. apply has_cons; [exact (has_comma c C)|]. apply has_token, has_nil.
  - intros l fs c _ [_ [H _]] C. apply (has_node 5 11 [NT 4] _ [YType (TEnum fs)] _ eq_refl); [|reflexivity]. apply has_one.
    apply (has_node 29 4 [W "enum"; W "{"; NT 3; NT 0; W "}"] _ [YText (JsonModel.lit "enum"); YText (JsonModel.lit "{"); YFields fs; YNone; YText (JsonModel.lit "}")] _ eq_refl); [|reflexivity].
    do 2 apply has_token. apply has_cons; [exact H|]. apply has_cons; [exact (has_comma c C)|]. apply has_token, has_nil.
  - intros l t _ H. split; [exact (listed_first _ _ H)|]. intros w0 ts0 H0. exact (listed_next _ _ _ _ H0 H).
  - intros l t l' ts _ H _ [H1 H2]. split; [exact (H2 _ _ (listed_first _ _ H))|]. intros w0 ts0 H0.
    pose proof (H2 _ _ (listed_next _ _ _ _ H0 H)) as Q. rewrite <- !app_assoc in Q. exact Q.
  - intros a l t _ H. split; [exact (lists_one _ _ _ _ _ a l t struct_bodies H)|exact (lists_one _ _ _ _ _ a l t enum_bodies H)].
  - intros a l t l' fs _ H _ [H1 H2].
    split; [exact (lists_more _ _ _ _ _ a l t l' fs struct_bodies H H1)|exact (lists_more _ _ _ _ _ a l t l' fs enum_bodies H H2)].
Qed.

(** ** The machine *)

Lemma lexical_valid toks : Forall lexical toks -> Forall (fun t : LrModel.token => fst t < 25) toks.
Proof. apply Forall_impl. intros [t w] (n & N & _). cbn [fst] in *. change 25 with (size type_terminals). apply nth_error_Some. congruence. Qed.

Lemma lexed_lexical s toks r : type_lexes s toks r -> Forall lexical toks.
Proof. intros H. eapply Forall_impl; [|exact (lexed_type_ok _ _ _ H)]. intros t K. exact (proj1 K). Qed.

Lemma type_evaluates X t w : type_derives X t w -> Forall lexical w -> exists v, type_eval t = Ret v.
Proof. intros D F. destruct (proj1 type_tree_means X t w D F) as (v & E & _). eauto. Qed.

Lemma type_drive_correct toks f : Forall lexical toks -> 6 * size toks + 2 <= f ->
  exists a, drive type_sym type_shift type_build (type_tables type_grammar) f [0] [] toks = Some (Ret a) /\
    (forall v, a = Accepted v -> exists t, v = YType t) /\ forall t, a = Accepted (YType t) <-> is_type toks t.
Proof.
  intros F L. destruct (lr_values (type_tables type_grammar) type_grammar 11 type_cert type_tables_checked type_sym type_shift type_build
    lexical type_evaluates toks f (lexical_valid _ F) F L) as (a & E & A).
  exists a. split; [exact E|]. split.
  - intros v ->. destruct (proj1 (A v) eq_refl) as (t & D & Ev). destruct (proj1 type_tree_means _ _ _ D F) as (v' & Ev' & M). cbn [means meant] in M.
    destruct M as (t' & -> & _). exists t'. congruence.
  - intros t. rewrite A. split.
    + intros (tr & D & Ev). destruct (proj1 type_tree_means _ _ _ D F) as (v' & Ev' & M). cbn [means meant] in M. destruct M as (t' & -> & M). congruence.
    + intros H. exact (proj1 is_type_has _ _ H).
Qed.

Lemma type_drive_total s toks r : type_lexes s toks r ->
  exists a, drive type_sym type_shift type_build (type_tables type_grammar) (type_fuel toks) [0] [] toks = Some (Ret a) /\
    (forall v, a = Accepted v -> exists t, v = YType t) /\ forall t, a = Accepted (YType t) <-> is_type toks t.
Proof. intros H. exact (type_drive_correct toks (type_fuel toks) (lexed_lexical _ _ _ H) (le_n _)). Qed.

Theorem parse_type_correct s :
  exists r, parse_type s = Ret r /\ forall t, r = Ok t <-> exists toks, type_lexes s toks [] /\ is_type toks t.
Proof.
  unfold parse_type. destruct (lex type_patterns (size s) 0 s) as [ts [p|]] eqn:E.
  - destruct (type_lex_place s ts p E) as (r & R & St & _). destruct (type_drive_total _ _ _ R) as (a & D & _).
    destruct (drive_before_drive _ _ _ _ _ _ _ _ _ D) as (o & -> & O).
    assert (No : forall t, ~ exists toks, type_lexes s toks [] /\ is_type toks t).
    { intros t (toks & R' & _). apply type_lex_correct in R'. congruence. }
    destruct o as [[v|t| |t]|]; [destruct O|..]; cbn [answer_result]; eexists; (split; [reflexivity|]); intros t';
      (split; [discriminate|intros H; destruct (No t' H)]).
  - apply type_lex_correct in E as L1. destruct (type_drive_total _ _ _ L1) as (a & -> & A1 & A2).
    assert (Q : forall t, (exists toks, type_lexes s toks [] /\ is_type toks t) <-> is_type ts t).
    { intros t. split; [|eauto]. intros (toks & R & G). apply type_lex_correct in R. congruence. }
    destruct a as [v|t| |t]; cbn [answer_result].
    + destruct (A1 v eq_refl) as (t & ->). exists (Ok t). split; [reflexivity|]. intros t'. rewrite Q, <- A2. split; congruence.
    + eexists. split; [reflexivity|]. intros t'. rewrite Q, <- A2. split; discriminate.
    + eexists. split; [reflexivity|]. intros t'. rewrite Q, <- A2. split; discriminate.
    + eexists. split; [reflexivity|]. intros t'. rewrite Q, <- A2. split; discriminate.
Qed.
