(** * Proofs about type texts that are cut short *)

From Coq Require Import Strings.String Lia ZifyBool.
From Verif Require Import Base StrModel JsonModel TypesModel LrModel LexSpec LexModel LexProofs SqlWords SqlParseModel TypeParseModel TypeGrammar TypeLexProofs
  TypeParsed SqlSpaceSpec TypeSpaceSpec TypeSpaceProofs.
Local Open Scope list_scope.

(** ** Words *)

Scheme cut_type := Minimality for is_type Sort Prop with cut_types := Minimality for is_types Sort Prop with cut_fields := Minimality for is_fields Sort Prop.
Combined Scheme cut_all from cut_type, cut_types, cut_fields.

Definition openers : list string := ["("; "string"; "struct"; "enum"; "bool"; "char"; "u8"; "u16"; "u32"; "u64"; "u128"; "i8"; "i16"; "i32"; "i64"; "i128"; "f32"; "f64"]%string.

Lemma type_opener l t : is_type l t -> exists k l0, l = sym k :: l0 /\ In k openers.
Proof.
  intros H. destruct H as [|p| |l ts H|l fs c H C|l cs c H C]; try (eexists; eexists; split; [reflexivity|cbn; tauto]).
  exists (prim_name p), []. split; [reflexivity|]. destruct p; cbn; tauto.
Qed.

Lemma types_opener l ts : is_types l ts -> exists k l0, l = sym k :: l0 /\ In k openers.
Proof.
  intros H. destruct H as [l t H|l t l' ts H H']; destruct (type_opener _ _ H) as (k & l0 & -> & I); exists k; eexists; (split; [reflexivity|exact I]).
Qed.

Lemma fields_opener l fs : is_fields l fs -> exists a l0, l = name_of a :: l0.
Proof. intros H. destruct H; eexists; eexists; reflexivity. Qed.

Lemma not_opener k k' : In k openers -> k' = ")"%string \/ k' = ","%string \/ k' = "}"%string -> sym k <> sym k'.
Proof. intros I H E. cbn in I. repeat (destruct I as [<-|I]; [destruct H as [ -> |[ -> | -> ]]; discriminate E|]). destruct I. Qed.

(** What follows a list does not go on with it. *)
Definition no_more (r : list LrModel.token) : Prop := forall r', r <> sym "," :: r'.
Definition no_member (r : list LrModel.token) : Prop := forall a r', r <> sym "," :: name_of a :: r'.

Lemma comma_end c r : optional_comma c -> no_member ((c ++ [sym "}"]) ++ r).
Proof. intros [->| ->] a r' E; discriminate E. Qed.

Lemma close_end r : no_more ([sym ")"] ++ r).
Proof. intros r' E. discriminate E. Qed.

Lemma comma_same c c' r r' : optional_comma c -> optional_comma c' -> (c ++ [sym "}"]) ++ r = (c' ++ [sym "}"]) ++ r' -> c = c' /\ r = r'.
Proof. intros [->| ->] [->| ->] E; cbn [app] in E; inversion E; auto. Qed.

Lemma type_code :
  (forall l t, is_type l t -> forall l' t' r r', is_type l' t' -> l ++ r = l' ++ r' -> l = l' /\ r = r') /\
  (forall l ts, is_types l ts -> forall l' ts' r r', is_types l' ts' -> no_more r -> no_more r' -> l ++ r = l' ++ r' -> l = l' /\ r = r') /\
  (forall l fs, is_fields l fs -> forall l' fs' r r', is_fields l' fs' -> no_member r -> no_member r' -> l ++ r = l' ++ r' -> l = l' /\ r = r').
Proof.
  apply cut_all.
  - intros l' t' r r' H E. destruct H as [|p| |l ts H|l fs c H C|l cs c H C]; try discriminate E.
    + injection E as E. auto.
    + destruct p; discriminate E.
    + exfalso. destruct (types_opener _ _ H) as (k & l0 & -> & I). apply (f_equal (fun m => hd (sym "") (tl m))) in E. cbn [app tl hd] in E.
      apply (not_opener k ")" I); [auto|]. congruence.
  - intros p l' t' r r' H E. destruct H as [|q| |l ts H|l fs c H C|l cs c H C]; try (destruct p; discriminate E).
    cbn [app] in E. assert (E1 : sym (prim_name p) = sym (prim_name q)) by (apply (f_equal (hd_error (A:=_))) in E; cbn [hd_error] in E; congruence).
    assert (E2 : r = r') by (apply (f_equal (@tl _)) in E; exact E). rewrite E1. auto.
  - intros l' t' r r' H E. destruct H as [|q| |l ts H|l fs c H C|l cs c H C]; try discriminate E; [destruct q; discriminate E|].
    injection E as E. auto.
  - intros l ts H IH l' t' r r' H' E. destruct H' as [|q| |l2 ts2 H2|l2 fs c H2 C|l2 cs c H2 C]; try discriminate E.
    + exfalso. destruct (types_opener _ _ H) as (k & l0 & -> & I). apply (f_equal (fun m => hd (sym "") (tl m))) in E. cbn [app tl hd] in E.
      apply (not_opener k ")" I); [auto|]. congruence.
    + destruct q; discriminate E.
    + apply (f_equal (@tl _)) in E. cbn [tl app] in E. rewrite <- !app_assoc in E.
      destruct (IH l2 ts2 _ _ H2 (close_end r) (close_end r') E) as [-> E']. injection E' as ->. auto.
  - intros l fs c H IH C l' t' r r' H' E. destruct H' as [|q| |l2 ts2 H2|l2 fs2 c2 H2 C2|l2 cs2 c2 H2 C2]; try discriminate E.
    + destruct q; discriminate E.
    + do 2 apply (f_equal (@tl _)) in E. cbn [tl app] in E. rewrite <- !(app_assoc _ (_ ++ _)) in E.
      destruct (IH l2 fs2 _ _ H2 (comma_end c r C) (comma_end c2 r' C2) E) as [-> E'].
      destruct (comma_same _ _ _ _ C C2 E') as [-> ->]. auto.
  - intros l fs c H IH C l' t' r r' H' E. destruct H' as [|q| |l2 ts2 H2|l2 fs2 c2 H2 C2|l2 cs2 c2 H2 C2]; try discriminate E.
    + destruct q; discriminate E.
    + do 2 apply (f_equal (@tl _)) in E. cbn [tl app] in E. rewrite <- !(app_assoc _ (_ ++ _)) in E.
      destruct (IH l2 cs2 _ _ H2 (comma_end c r C) (comma_end c2 r' C2) E) as [-> E'].
      destruct (comma_same _ _ _ _ C C2 E') as [-> ->]. auto.
  - intros l t H IH l' ts' r r' H' N N' E. destruct H' as [l2 t2 H2|l2 t2 l3 ts3 H2 H3].
    + exact (IH _ _ _ _ H2 E).
    + rewrite <- app_assoc in E. destruct (IH _ _ _ _ H2 E) as [_ ->]. destruct (N _ eq_refl).
  - intros l t l1 ts H IH H1 IH1 l' ts' r r' H' N N' E. rewrite <- app_assoc in E. destruct H' as [l2 t2 H2|l2 t2 l3 ts3 H2 H3].
    + destruct (IH _ _ _ _ H2 E) as [_ E']. symmetry in E'. destruct (N' _ E').
    + rewrite <- app_assoc in E. destruct (IH _ _ _ _ H2 E) as [-> E']. cbn [app] in E'. apply (f_equal (@tl _)) in E'. cbn [tl] in E'.
      destruct (IH1 _ _ _ _ H3 N N' E') as [-> ->]. auto.
  - intros a l t H IH l' fs' r r' H' N N' E. destruct H' as [a2 l2 t2 H2|a2 l2 t2 l3 ts3 H2 H3].
    + cbn [app] in E. injection E as -> E. destruct (IH _ _ _ _ H2 E) as [-> ->]. auto.
    + cbn [app] in E. injection E as -> E. rewrite <- app_assoc in E. destruct (IH _ _ _ _ H2 E) as [_ ->].
      destruct (fields_opener _ _ H3) as (b & l4 & ->). destruct (N _ _ eq_refl).
  - intros a l t l1 ts H IH H1 IH1 l' fs' r r' H' N N' E. destruct H' as [a2 l2 t2 H2|a2 l2 t2 l3 ts3 H2 H3].
    + cbn [app] in E. injection E as -> E. rewrite <- app_assoc in E. destruct (IH _ _ _ _ H2 E) as [_ E'].
      destruct (fields_opener _ _ H1) as (b & l4 & ->). symmetry in E'. destruct (N' _ _ E').
    + cbn [app] in E. injection E as -> E. rewrite <- !app_assoc in E. destruct (IH _ _ _ _ H2 E) as [-> E'].
      cbn [app] in E'. apply (f_equal (@tl _)) in E'. cbn [tl] in E'. destruct (IH1 _ _ _ _ H3 N N' E') as [-> ->]. auto.
Qed.

(** ** Texts *)

(** The beginning of a word is a word, unless it is one of the marks. *)
Lemma word_prefix t w z : type_word t (w ++ z) -> w <> [] -> z <> [] -> exists t', type_word t' w.
Proof.
  intros H N Z. apply type_word_pattern in H as (j & J & -> & H).
  assert (Id : identifier (w ++ z) -> exists t', type_word t' w).
  { intros (c & cs & E & S & F). destruct w as [|x w]; [contradiction|]. injection E as -> <-. apply Forall_app in F as [F _].
    exists 1%nat. apply type_word_pattern. exists 1%nat. split; [lia|]. split; [reflexivity|]. exists c, w. auto. }
  destruct j as [|[|j]].
  - destruct H as [_ F]. apply Forall_app in F as [F _]. exists 0%nat. apply type_word_pattern. exists 0%nat. split; [lia|]. split; [reflexivity|]. split; assumption.
  - exact (Id H).
  - apply V_fixed in H; [|lia].
    assert (K : identifier (w ++ z) \/ List.length (w ++ z) = 1%nat).
    { rewrite H. do 23 (destruct j as [|j]; [cbn; first [right; reflexivity|left; eexists; eexists; split; [reflexivity|split; [unfold name_start; lia|repeat constructor; unfold name_char, name_start, digit; lia]]]|]). lia. }
    destruct K as [K|K]; [exact (Id K)|]. exfalso. rewrite app_length in K. destruct w, z; cbn in K; try contradiction; lia.
Qed.

Lemma lexes_empty s toks r : type_lexes s toks r -> s = [] -> toks = [].
Proof.
  intros R E. destruct R as [s|c s toks r _ _|t w s toks r N _ _ _ _]; [reflexivity|discriminate E|].
  apply app_eq_nil in E as [E _]. contradiction.
Qed.

Lemma lexes_nothing s toks r : type_lexes s toks r -> toks = [] -> r = [] -> blanks s.
Proof. intros R. induction R as [s|c s toks r B R IH|]; intros E E'; [subst; constructor|apply Forall_cons; [exact B|exact (IH E E')]|discriminate E]. Qed.

(** Two readings of a text and of its beginning: the same words, or the last word of the beginning goes on. *)
Lemma lexes_beginning s1 toks1 r1 : type_lexes s1 toks1 r1 -> r1 = [] -> forall s2 toks, type_lexes (s1 ++ s2) toks [] ->
  (exists more, toks = toks1 ++ more /\ type_lexes s2 more []) \/
  (exists l t w t' z more, toks1 = l ++ [(t, w)] /\ toks = l ++ (t', w ++ z) :: more /\ z <> [] /\ type_word t w /\ type_word t' (w ++ z)).
Proof.
  induction 1 as [s|c s toks1 r B R IH|t w s toks1 r N Hw A U R IH]; intros Er s2 toks L.
  - subst s. left. exists toks. auto.
  - cbn [app] in L. apply (IH Er s2 toks). exact (lexes_unblank [c] (s ++ s2) toks (Forall_cons c B (Forall_nil _)) L).
  - rewrite <- app_assoc in L.
    inversion L as [x H1 H2 H3|x s0 toks0 r0 B0 R0 H1 H2 H3|t0 w0 s0 toks0 r0 N0 Hw0 A0 U0 R0 H1 H2 H3]; subst.
    + exfalso. destruct w; [contradiction|discriminate].
    + exfalso. destruct (type_word_head _ _ Hw) as (d & w' & -> & D). cbn [app] in H1. injection H1 as -> _. congruence.
    + pose proof (A0 t w (s ++ s2) H1 Hw) as L0.
      destruct (Nat.eq_dec (List.length w0) (List.length w)) as [Le|Le].
      * destruct (app_same_length _ _ _ _ H1 Le) as [-> ->].
        assert (t0 = t) as ->.
        { destruct (U0 t Hw) as [Q|P]; [congruence|]. destruct (U t0 Hw0) as [Q|P']; [exact Q|]. destruct P as [P1 P2], P' as [P3 P4]. congruence. }
        destruct (IH eq_refl s2 toks0 R0) as [(more & -> & M)|(l & u & v & u' & z & more & -> & -> & Z & W & W')].
        -- left. exists more. auto.
        -- right. exists ((t, w) :: l), u, v, u', z, more. repeat split; auto.
      * right.
        assert (P : exists z, w0 = w ++ z /\ z <> []).
        { exists (skipn (List.length w) w0). split.
          - rewrite <- (firstn_skipn (List.length w) w0) at 1. f_equal. apply (f_equal (firstn (List.length w))) in H1.
            rewrite !firstn_app, firstn_all, Nat.sub_diag in H1. cbn [firstn] in H1. rewrite app_nil_r in H1.
            replace (List.length w - List.length w0)%nat with 0%nat in H1 by lia. cbn [firstn] in H1. rewrite app_nil_r in H1. exact H1.
          - intros Z. apply (f_equal (@List.length _)) in Z. rewrite skipn_length in Z. cbn in Z. lia. }
        destruct P as (z & -> & Z). rewrite <- app_assoc in H1. apply app_inv_head in H1.
        destruct s as [|x s].
        -- assert (toks1 = []) as ->.
           { exact (lexes_empty _ _ _ R eq_refl). }
           exists [], t, w, t0, z, toks0. auto.
        -- exfalso. destruct z as [|y z]; [contradiction|]. cbn [app] in H1. injection H1 as -> H1.
           assert (Q : exists t', type_word t' (w ++ [x])).
           { destruct z as [|y z]; [exists t0; exact Hw0|]. apply (word_prefix t0 (w ++ [x]) (y :: z)); [rewrite <- app_assoc; exact Hw0|destruct w; discriminate|discriminate]. }
           destruct Q as (t' & Q). specialize (A t' (w ++ [x]) s ltac:(rewrite <- app_assoc; reflexivity) Q). rewrite app_length in A. cbn in A. lia.
Qed.

Lemma type_ends l t x : is_type (l ++ [x]) t -> x = sym ")" \/ x = sym "}" \/ l = [].
Proof.
  intros H. remember (l ++ [x]) as m eqn:E. destruct H as [|p| |m ts H|m fs c H C|m cs c H C].
  - apply (app_inj_tail [sym "("]) in E as [_ <-]. auto.
  - destruct l as [|y l]; [auto|]. cbn [app] in E. apply (f_equal (@tl _)) in E. destruct l; discriminate E.
  - destruct l as [|y l]; [auto|]. cbn [app] in E. apply (f_equal (@tl _)) in E. destruct l; discriminate E.
  - apply (app_inj_tail (sym "(" :: m)) in E as [_ <-]. auto.
  - rewrite app_assoc in E. apply (app_inj_tail (sym "struct" :: sym "{" :: m ++ c)) in E as [_ <-]. auto.
  - rewrite app_assoc in E. apply (app_inj_tail (sym "enum" :: sym "{" :: m ++ c)) in E as [_ <-]. auto.
Qed.

Lemma single_type x t : is_type [x] t -> exists k, x = sym k /\ In k openers /\ k <> "("%string.
Proof.
  intros H. remember [x] as m eqn:E. destruct H as [|p| |m ts H|m fs c H C|m cs c H C]; try discriminate E.
  - injection E as <-. exists (prim_name p). split; [reflexivity|]. split; [destruct p; cbn; tauto|destruct p; discriminate].
  - injection E as <-. exists "string"%string. split; [reflexivity|]. split; [cbn; tauto|discriminate].
  - apply (f_equal (@tl _)) in E. cbn [tl] in E. apply app_eq_nil in E as [_ E]. discriminate E.
Qed.

Lemma no_longer_opener k k' z : In k openers -> k <> "("%string -> In k' openers -> z <> [] -> JsonModel.lit k ++ z <> JsonModel.lit k'.
Proof.
  intros I N I' Z E. cbn in I, I'.
  repeat (destruct I as [<-|I]; [first [destruct (N eq_refl)|
    repeat (destruct I' as [<-|I']; [cbn in E; first [discriminate E|injection E as E; contradiction]|]); destruct I']|]). destruct I.
Qed.

Lemma type_cut s1 s2 t1 t : parse_type s1 = Ret (Ok t1) -> parse_type (s1 ++ s2) = Ret (Ok t) -> blanks s2 /\ t1 = t.
Proof.
  intros E1 E. apply type_parse_grammar in E1 as (toks1 & L1 & G1). apply type_parse_grammar in E as (toks & L & G).
  destruct (lexes_beginning _ _ _ L1 eq_refl s2 toks L) as [(more & -> & M)|(l & u & w & u' & z & more & -> & -> & Z & Hu & Hu')].
  - destruct (proj1 type_code _ _ G1 _ _ more [] G) as [Eq ->]; [rewrite app_nil_r; reflexivity|].
    rewrite app_nil_r in G. split; [|exact (is_type_unique _ _ _ G1 G)].
    exact (lexes_nothing _ _ _ M eq_refl eq_refl).
  - exfalso. destruct (type_ends _ _ _ G1) as [X|[X|X]].
    + injection X as _ ->. enough (JsonModel.lit ")" ++ z = [41%Z]) as Q by (cbn in Q; injection Q; exact Z).
      apply (word_loose u' _ 41%Z Hu'); [cbn; auto|right; cbn; auto].
    + injection X as _ ->. enough (JsonModel.lit "}" ++ z = [125%Z]) as Q by (cbn in Q; injection Q; exact Z).
      apply (word_loose u' _ 125%Z Hu'); [cbn; auto|right; cbn; tauto].
    + subst l. destruct (single_type _ _ G1) as (k & X & I & N). injection X as _ ->.
      destruct (type_opener _ _ G) as (k' & l0 & X & I'). cbn [app] in X. injection X as _ X _.
      exact (no_longer_opener k k' z I N I' Z X).
Qed.

(** ** White space is not needed at all *)

Definition marked (x : LrModel.token) : Prop := exists c, snd x = [c] /\ mark c.

Fixpoint tight (l : list LrModel.token) : Prop :=
  match l with x :: l' => match l' with [] => True | y :: _ => marked x \/ marked y end /\ tight l' | [] => True end.

Lemma tight_cons x l : marked x -> tight l -> tight (x :: l).
Proof. intros M T. cbn [tight]. split; [|exact T]. destruct l; auto. Qed.

Lemma tight_mid l x l' : tight l -> marked x -> tight l' -> tight (l ++ x :: l').
Proof.
  intros T M T'. induction l as [|y l IH]; [exact (tight_cons _ _ M T')|]. destruct T as [H T]. cbn [app].
  change (match l ++ x :: l' with [] => True | z :: _ => marked y \/ marked z end /\ tight (l ++ x :: l')).
  split; [|exact (IH T)]. destruct l as [|z l]; cbn [app]; auto.
Qed.

Lemma mark_sym k : In k ["("; ")"; ","; ":"; "{"; "}"]%string -> marked (sym k).
Proof. intros I. cbn in I. repeat (destruct I as [<-|I]; [eexists; split; [reflexivity|cbn; tauto]|]). destruct I. Qed.

Lemma tight_type :
  (forall l t, is_type l t -> tight l) /\ (forall l ts, is_types l ts -> tight l) /\ (forall l fs, is_fields l fs -> tight l).
Proof.
  assert (B : forall k l c, optional_comma c -> tight l -> tight (sym k :: sym "{" :: l ++ c ++ [sym "}"])).
  { intros k l c C T. split; [right; apply mark_sym; cbn; tauto|]. apply tight_cons; [apply mark_sym; cbn; tauto|].
    destruct C as [-> | ->]; cbn [app].
    - apply tight_mid; [exact T|apply mark_sym; cbn; tauto|exact I].
    - apply tight_mid; [exact T|apply mark_sym; cbn; tauto|]. split; exact I. }
  apply cut_all.
  - split; [left; apply mark_sym; cbn; tauto|split; exact I].
  - intros p. split; exact I.
  - split; exact I.
  - intros l ts _ T. apply tight_cons; [apply mark_sym; cbn; tauto|]. apply tight_mid; [exact T|apply mark_sym; cbn; tauto|exact I].
  - intros l fs c _ T C. exact (B "struct"%string l c C T).
  - intros l fs c _ T C. exact (B "enum"%string l c C T).
  - intros l t _ T. exact T.
  - intros l t l' ts _ T _ T'. apply tight_mid; [exact T|apply mark_sym; cbn; tauto|exact T'].
  - intros a l t _ T. apply (tight_mid [name_of a]); [split; exact I|apply mark_sym; cbn; tauto|exact T].
  - intros a l t l' fs _ T _ T'. apply (tight_mid [name_of a]); [split; exact I|apply mark_sym; cbn; tauto|].
    apply tight_mid; [exact T|apply mark_sym; cbn; tauto|exact T'].
Qed.

Lemma tight_lexes toks : tight toks -> Forall type_ok toks -> type_lexes (concat (map snd toks)) toks [].
Proof.
  induction toks as [|[t w] toks IH]; intros T F; [constructor|]. destruct T as [T1 T2]. inversion F as [|? ? [F1 F2] F3]; subst.
  cbn [fst snd] in F1, F2. cbn [map concat snd]. pose proof (type_word_full _ _ F1) as N.
  apply L_word; [exact N|exact F1| |exact F2|exact (IH T2 F3)].
  apply (at_most_place t w [] [] (concat (map snd toks)) F1 N).
  - destruct toks as [|[u v] toks]; [right; left; reflexivity|]. destruct T1 as [(c & E & M)|(c & E & M)]; cbn [snd] in E; subst.
    + right. right. left. exists [], c. split; [reflexivity|right; exact M].
    + right. right. right. exists c, (concat (map snd toks)). split; [reflexivity|right; exact M].
  - intros t' v rest E _. rewrite !app_nil_r in E. rewrite E, app_length. lia.
Qed.

Lemma word_dark t w : type_word t w -> Forall (fun c => is_whitespace c = false) w.
Proof.
  intros H. apply Forall_forall. intros c I. destruct (is_whitespace c) eqn:B; [|reflexivity]. exfalso.
  pose proof (word_loose _ _ _ H I (or_introl B)) as ->. destruct (type_word_head _ _ H) as (d & w' & E & D). injection E as <- _. congruence.
Qed.

Lemma dark_kept w : Forall (fun c => is_whitespace c = false) w -> filter (fun c => negb (is_whitespace c)) w = w.
Proof. induction 1 as [|c w D _ IH]; [reflexivity|]. cbn [filter]. rewrite D. cbn [negb]. now rewrite IH. Qed.

Lemma lexes_dark s toks r : type_lexes s toks r -> r = [] -> filter (fun c => negb (is_whitespace c)) s = concat (map snd toks).
Proof.
  induction 1 as [s|c s toks r B _ IH|t w s toks r N W _ _ _ IH]; intros E.
  - subst. reflexivity.
  - cbn [filter]. rewrite B. cbn [negb]. exact (IH E).
  - rewrite filter_app, (dark_kept w (word_dark _ _ W)), (IH E). reflexivity.
Qed.

Lemma space_free s t : parse_type s = Ret (Ok t) -> parse_type (filter (fun c => negb (is_whitespace c)) s) = Ret (Ok t).
Proof.
  intros E. apply type_parse_grammar in E as (toks & L & G). rewrite (lexes_dark _ _ _ L eq_refl).
  apply type_parse_grammar. exists toks. split; [|exact G]. apply tight_lexes; [exact (proj1 tight_type _ _ G)|exact (lexed_type_ok _ _ _ L)].
Qed.
