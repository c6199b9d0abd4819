(** * Proofs about cut and joined JSON documents *)

From Coq Require Import Strings.String Sorting.Permutation.
From Verif Require Import Base StrModel Utf8Model TypesModel MarshalModel MarshalSpec JsonModel JsonSpec WhiteSpec JsonDocSpec JsonDocProofs JsonCutSpec.
Local Open Scope list_scope.
Local Open Scope Z_scope.

Section Cut.
Context (alnum : Z -> bool) (fl : floats).

Let reads := reads alnum.
Let document := document alnum fl.
Let elements := elements alnum fl.
Let members := members alnum fl.

Definition mark (c : Z) : Prop := In c white_space \/ In c (lit "[]{},:").
Definition marked (r : str) : Prop := exists c r', r = c :: r' /\ mark c.
Definition enclosed (t : ty) : Prop := match t with TUnit => False | TPrim p => p = PChar | _ => True end.

(** ** Numbers *)

Definition number_char (c : Z) : Prop := 48 <= c <= 57 \/ c = 45 \/ c = 43 \/ c = 46 \/ c = 101 \/ c = 69.

Lemma mark_no_number c : mark c -> ~ number_char c.
Proof.
  intros H N. unfold number_char in N. destruct H as [H|H]; cbn in H;
    repeat (destruct H as [H|H]; [lia|]); contradiction.
Qed.

Lemma mark_no_word c : mark c -> (c < 128) -> ~ word_character alnum c.
Proof.
  intros H L N. unfold word_character in N. destruct H as [H|H]; cbn in H;
    repeat (destruct H as [H|H]; [lia|]); contradiction.
Qed.

Lemma digits_chars ds : all_digits ds -> Forall number_char ds.
Proof. apply Forall_impl. intros c H. left. exact H. Qed.

Lemma part_chars sg i f : sign_part sg -> int_part i -> frac_part f -> Forall number_char (sg ++ i ++ f).
Proof.
  intros Sg I F. apply Forall_app. split.
  { destruct Sg as [->| ->]; [constructor|constructor; [unfold number_char; lia|constructor]]. }
  apply Forall_app. split.
  - destruct I as [->|(c & ds & -> & C & D)]; [constructor; [left; lia|constructor]|constructor; [left; lia|now apply digits_chars]].
  - destruct F as [->|(ds & -> & D)]; [constructor|]. constructor; [right; right; right; left; reflexivity|now apply digits_chars].
Qed.

Lemma exp_chars e sg : e = 101 \/ e = 69 -> sg = [] \/ sg = [43] \/ sg = [45] -> Forall number_char (e :: sg).
Proof.
  intros He Hs. constructor; [unfold number_char; lia|]. destruct Hs as [->|[->| ->]]; [constructor|constructor; [unfold number_char; lia|constructor]..].
Qed.

Lemma lexeme_chars p : number_lexeme p -> Forall number_char p.
Proof.
  intros (sg & i & f & e & -> & S & I & F & E). rewrite !app_assoc, <- (app_assoc sg). apply Forall_app. split; [now apply part_chars|].
  destruct E as [->|(x & s & ds & -> & X & Y & _ & D)]; [constructor|]. change (x :: s ++ ds) with ((x :: s) ++ ds).
  apply Forall_app. split; [now apply exp_chars|now apply digits_chars].
Qed.

(** Number characters at the front do not go beyond a mark. *)
Lemma before_mark u w p c r : Forall number_char u -> mark c -> u ++ w = p ++ c :: r -> exists z, p = u ++ z /\ w = z ++ c :: r.
Proof.
  intros F M. revert p. induction F as [|x u X F IH]; intros p E.
  - exists p. cbn in E. auto.
  - destruct p as [|y p]; cbn in E; injection E as -> E.
    + destruct (mark_no_number _ M X).
    + destruct (IH _ E) as (z & -> & ->). exists z. auto.
Qed.

Lemma number_more s p r q : reads s (SNumber p) r -> marked r -> reads (s ++ q) (SNumber p) (r ++ q).
Proof.
  intros H. remember (SNumber p) as x eqn:X. revert X. induction H as [c s x r I H IH| |c r I|w r I N|s r x H|p0 r L N]; intros X (c1 & r1 & Er & M); try discriminate.
  - cbn [app]. apply rd_white; [exact I|]. apply IH; [exact X|]. exists c1, r1. auto.
  - injection X as ->. subst r. rewrite <- app_assoc. apply rd_number.
    + destruct L as (L1 & L2 & L3). split; [exact L1|]. split; [exists ((c1 :: r1) ++ q); reflexivity|].
      intros p' r' E Lx. cbn [app] in E. symmetry in E. destruct (before_mark _ _ _ _ _ (lexeme_chars _ Lx) M E) as (z & -> & _).
      rewrite app_length. lia.
    + intros (sg & i & f & r' & E & S & I & F & (e & s2 & r2 & -> & He & Hs & Hd & Hz)). apply N.
      cbn [app] in E. symmetry in E.
      assert (E' : ((sg ++ i ++ f) ++ e :: s2) ++ r2 = p ++ c1 :: r1 ++ q).
      { rewrite <- E, <- !app_assoc. reflexivity. }
      assert (U : Forall number_char ((sg ++ i ++ f) ++ e :: s2)) by (apply Forall_app; split; [now apply part_chars|now apply exp_chars]).
      destruct (before_mark _ _ _ _ _ U M E') as (z & -> & ->).
      exists sg, i, f, (e :: s2 ++ z ++ c1 :: r1). split; [rewrite <- !app_assoc; reflexivity|].
      repeat split; try assumption. exists e, s2, (z ++ c1 :: r1). split; [reflexivity|]. split; [exact He|]. split; [exact Hs|].
      destruct z; cbn [app] in *; auto.
Qed.

(** ** Strings, words and punctuation *)

Lemma contents_full s r x : contents s r x -> r <> [] -> s <> [].
Proof. intros H N. induction H; [exact N|discriminate..]. Qed.

Lemma contents_more s r x q : contents s r x -> r <> [] -> contents (s ++ q) (r ++ q) x.
Proof.
  intros H N. induction H as [r|c s r x A B C H IH|c e s r x I H IH|ds s r x X S H IH]; cbn [app].
  - constructor.
  - constructor; auto.
  - econstructor; eauto.
  - rewrite <- app_assoc. apply ct_unicode; [|exact S|auto]. destruct X as (X1 & X2 & X3). split; [exact X1|]. split; [exact X2|].
    intros L. destruct (X3 L) as (c & s' & -> & Hc). exists c, (s' ++ q). auto.
Qed.

Lemma text_more s x r q : reads s (SText x) r -> reads (s ++ q) (SText x) (r ++ q).
Proof.
  intros H. remember (SText x) as y eqn:Y. revert Y. induction H as [c s y r I H IH| |c r I|w r I N|s r y H|p0 r L N]; intros Y; try discriminate.
  - cbn [app]. apply rd_white; [exact I|]. apply IH, Y.
  - injection Y as ->. cbn [app]. apply rd_text. apply (contents_more _ _ _ q) in H; [exact H|discriminate].
Qed.

Lemma punct_more s c r q : reads s (SPunct c) r -> reads (s ++ q) (SPunct c) (r ++ q).
Proof.
  intros H. remember (SPunct c) as y eqn:Y. revert Y. induction H as [d s y r I H IH| |d r I|w r I N|s r y H|p0 r L N]; intros Y; try discriminate.
  - cbn [app]. apply rd_white; [exact I|]. apply IH, Y.
  - injection Y as ->. cbn [app]. apply rd_punct, I.
Qed.

Lemma word_more s w r q : reads s (SWord w) r -> marked r -> reads (s ++ q) (SWord w) (r ++ q).
Proof.
  intros H. remember (SWord w) as y eqn:Y. revert Y. induction H as [d s y r I H IH| |d r I|w0 r I N|s r y H|p0 r L N]; intros Y (c1 & r1 & E & M); try discriminate.
  - cbn [app]. apply rd_white; [exact I|]. apply IH; [exact Y|]. exists c1, r1. auto.
  - injection Y as ->. subst r. rewrite <- app_assoc. apply rd_word; [exact I|]. intros c r' E. injection E as -> _. exact (N c r1 eq_refl).
Qed.

Lemma punct_marked s c r : reads s (SPunct c) r -> marked s.
Proof.
  intros H. remember (SPunct c) as y eqn:Y. destruct H as [d s y r I H| |d r I|w r I N|s r y H|p0 r L N]; try discriminate.
  - exists d, s. split; [reflexivity|left; exact I].
  - exists d, r. split; [reflexivity|right; exact I].
Qed.

Lemma either_more s x r q : reads s (SNumber x) r \/ reads s (SText x) r -> marked r ->
  reads (s ++ q) (SNumber x) (r ++ q) \/ reads (s ++ q) (SText x) (r ++ q).
Proof. intros [H|H] M; [left; now apply number_more|right; now apply text_more]. Qed.

Lemma separated_more b s s0 q : separated alnum b s s0 -> separated alnum b (s ++ q) (s0 ++ q).
Proof. destruct b; cbn [separated]; [intros ->; reflexivity|apply punct_more]. Qed.

Lemma elements_marked b ts s vs r : elements b ts s vs r -> b = false -> marked r -> marked s.
Proof. intros H Eb M. destruct H as [b s|b t ts v vs s s0 s1 r S D E]; [exact M|]. subst b. exact (punct_marked _ _ _ S). Qed.

Lemma members_marked b ms s r : members b ms s r -> b = false -> marked r -> marked s.
Proof. intros H Eb M. destruct H as [b s|b l t v ms s s0 s1 s2 s3 r S D E]; [exact M|]. subst b. exact (punct_marked _ _ _ S). Qed.

Lemma integer_open p : integer_prim p -> p <> PChar.
Proof. intros H E. subst p. apply H. right. left. reflexivity. Qed.

(** A document goes on being one when text is added behind. *)
Lemma document_more t s v r : document t s v r -> forall q, enclosed t \/ marked r -> document t (s ++ q) v (r ++ q).
Proof.
  revert t s v r.
  apply (document_mind alnum fl (fun t s v r => forall q, enclosed t \/ marked r -> document t (s ++ q) v (r ++ q))
    (fun b ts s vs r => forall q, marked r -> elements b ts (s ++ q) vs (r ++ q))
    (fun b ms s r => forall q, marked r -> members b ms (s ++ q) (r ++ q))).
  - intros s r H q [[]|M]. apply dc_unit. now apply word_more.
  - intros s r H q [K|M]; [cbn in K; discriminate K|]. apply dc_true. now apply word_more.
  - intros s r H q [K|M]; [cbn in K; discriminate K|]. apply dc_false. now apply word_more.
  - intros s c r H q _. apply dc_char. now apply text_more.
  - intros p s x z r Hp H Hn Hr q [K|M]; [destruct (integer_open p Hp K)|].
    eapply dc_integer; [exact Hp|apply either_more; [exact H|exact M]|exact Hn|exact Hr].
  - intros p s x z r Hp H Hf q [K|M]; [cbn in K; destruct Hp; congruence|].
    eapply dc_float; [exact Hp|apply either_more; [exact H|exact M]|exact Hf].
  - intros s x r H q _. apply dc_string. now apply text_more.
  - intros ts vs s s1 s2 r R1 _ IH R2 q _. eapply dc_tuple; [apply punct_more; exact R1|apply IH; exact (punct_marked _ _ _ R2)|apply punct_more; exact R2].
  - intros fs vs ms s s1 s2 r ND L P R1 _ IH R2 q _.
    eapply dc_struct; [exact ND|exact L|exact P|apply punct_more; exact R1|apply IH; exact (punct_marked _ _ _ R2)|apply punct_more; exact R2].
  - intros cs k l t v s s1 s2 s3 s4 s5 s6 s7 s8 r N M R1 R2 R3 R4 R5 R6 R7 _ IH R8 q _.
    eapply dc_enum; [exact N|exact M|apply punct_more; exact R1|apply text_more; exact R2|apply punct_more; exact R3|apply text_more; exact R4|
      apply punct_more; exact R5|apply text_more; exact R6|apply punct_more; exact R7|apply IH; right; exact (punct_marked _ _ _ R8)|apply punct_more; exact R8].
  - intros b s q _. constructor.
  - intros b t ts v vs s s0 s1 r Hs _ IHd He IHe q M.
    eapply el_cons; [apply separated_more; exact Hs|apply IHd; right; exact (elements_marked _ _ _ _ _ He eq_refl M)|now apply IHe].
  - intros b s q _. constructor.
  - intros b l t v ms s s0 s1 s2 s3 r Hs R1 R2 _ IHd Hm IHm q M.
    eapply mb_cons; [apply separated_more; exact Hs|apply text_more; exact R1|apply punct_more; exact R2|
      apply IHd; right; exact (members_marked _ _ _ _ Hm eq_refl M)|now apply IHm].
Qed.

(** ** Words *)

Lemma word_front p w r y w' r2 : reads p (SWord w) r -> reads (p ++ y) (SWord w') r2 -> r2 = r ++ y.
Proof.
  intros H. remember (SWord w) as x eqn:X. revert X r2. induction H as [c s x r I H IH| |c r I|w0 r I N|s r x H|p0 r L N]; intros X r2 H2; try discriminate.
  - cbn [app] in H2. apply (IH X). inversion H2 as [c' s' x' r' I' H' E1 E2 E3| | |w1 r' I' N' E1 E2 E3| |]; subst; [exact H'|].
    exfalso. cbn in I'. destruct I' as [<-|[<-|[<-|[]]]]; injection E1 as <- _; cbn in I; repeat (destruct I as [I|I]; [discriminate|]); exact I.
  - inversion H2 as [c' s' x' r' I' H' E1 E2 E3| | |w1 r' I' N' E1 E2 E3| |]; subst.
    + exfalso. cbn in I. destruct I as [<-|[<-|[<-|[]]]]; injection E1 as -> _; cbn in I'; repeat (destruct I' as [I'|I']; [discriminate|]); exact I'.
    + cbn in I, I'. destruct I as [<-|[<-|[<-|[]]]]; destruct I' as [<-|[<-|[<-|[]]]]; cbn in E1; try discriminate E1; now injection E1.
Qed.

Lemma document_word t s v r : document t s v r -> t = TUnit \/ t = TPrim PBool -> exists w, reads s (SWord w) r.
Proof.
  intros H K. destruct H; try (destruct K; discriminate); eauto.
  - exfalso. destruct K as [K|K]; [discriminate|]. injection K as ->. match goal with H : integer_prim _ |- _ => apply H; left; reflexivity end.
  - exfalso. destruct K as [K|K]; [discriminate|]. injection K as ->. match goal with H : PBool = _ \/ _ |- _ => destruct H; discriminate end.
Qed.

(** ** Cut documents *)

Lemma document_front t p v' r' y v r : not_numeric t -> document t p v' r' -> document t (p ++ y) v r -> r = r' ++ y.
Proof.
  intros N D' D. assert (K : enclosed t \/ t = TUnit \/ t = TPrim PBool).
  { destruct t; cbn; auto. destruct (N _ eq_refl) as [->| ->]; auto. }
  destruct K as [K|K].
  - pose proof (document_more _ _ _ _ D' y (or_introl K)) as M.
    destruct (document_det alnum fl _ _ _ _ D _ _ M). assumption.
  - destruct (document_word _ _ _ _ D' K) as [w W]. destruct (document_word _ _ _ _ D K) as [w' W'].
    exact (word_front _ _ _ _ _ _ W W').
Qed.

Lemma cut_document t a r v p v' r' : not_numeric t -> document t (a ++ r) v r -> cut p a -> ~ document t p v' r'.
Proof.
  intros N D (z & -> & Z) D'. rewrite <- app_assoc in D. pose proof (document_front _ _ _ _ _ _ _ N D' D) as E.
  apply (f_equal (@List.length _)) in E. rewrite !app_length in E. destruct z; [contradiction|cbn in E; lia].
Qed.

Lemma cut_decode pf t a r v p old d : all_structs (fun n => (n < 64)%nat) t -> not_numeric t ->
  document t (a ++ r) v r -> cut p a -> json_decode alnum fl pf t p old <> Ret (d, Ok tt).
Proof.
  intros A N D C H. destruct (decode_document alnum fl pf t p old d A H) as (v' & s & D' & _).
  exact (cut_document _ _ _ _ _ _ _ N D C D').
Qed.

Lemma front_of (d d' x x' : str) : d ++ x = d' ++ x' -> (exists z, d' = d ++ z) \/ (exists z, d = d' ++ z).
Proof.
  revert d'. induction d as [|c d IH]; intros d' E; [left; exists d'; reflexivity|].
  destruct d' as [|c' d']; [right; exists (c :: d); reflexivity|]. cbn [app] in E. injection E as -> E.
  destruct (IH _ E) as [[z ->]|[z ->]]; [left|right]; exists z; reflexivity.
Qed.

Lemma reads_nil x r : reads [] x r -> x = SEnd.
Proof.
  intros H. remember [] as s eqn:Es. destruct H as [c s x r I H| |c r I|w r I N|s r x H|p0 r L N]; try discriminate; [reflexivity|..].
  - cbn in I. destruct I as [<-|[<-|[<-|[]]]]; discriminate Es.
  - destruct (number_start alnum _ _ L) as (c & s' & E & _). rewrite Es in E. discriminate E.
Qed.

Lemma joined t ds vs ds' vs' : not_numeric t -> Forall2 (fun d v => document t d v []) ds vs -> Forall2 (fun d v => document t d v []) ds' vs' ->
  concat ds = concat ds' -> ds = ds' /\ vs = vs'.
Proof.
  intros N H. assert (Full : forall d v, document t d v [] -> d <> []).
  { intros d v D ->. inversion D; subst;
      repeat match goal with H : JsonDocSpec.reads _ [] _ _ \/ JsonDocSpec.reads _ [] _ _ |- _ => destruct H end;
      match goal with H : JsonDocSpec.reads _ [] _ _ |- _ => apply reads_nil in H; discriminate H end. }
  revert ds' vs'. induction H as [|d v ds vs D H IH]; intros ds' vs' H' E.
  - destruct H' as [|d' v' ds' vs' D' H']; [auto|]. exfalso. cbn in E. symmetry in E. apply app_eq_nil in E as [E _]. exact (Full _ _ D' E).
  - destruct H' as [|d' v' ds' vs' D' H'].
    { exfalso. cbn in E. apply app_eq_nil in E as [E _]. exact (Full _ _ D E). }
    cbn [concat] in E. assert (d = d') as <-.
    { destruct (front_of _ _ _ _ E) as [[z Z]|[z Z]].
      - rewrite Z in D'. pose proof (document_front _ _ _ _ _ _ _ N D D') as X. cbn in X. subst z. now rewrite app_nil_r in Z.
      - rewrite Z in D. pose proof (document_front _ _ _ _ _ _ _ N D' D) as X. cbn in X. subst z. now rewrite app_nil_r in Z. }
    apply app_inv_head in E. destruct (IH _ _ H' E) as [-> ->]. destruct (document_det alnum fl _ _ _ _ D _ _ D') as [-> _]. auto.
Qed.
End Cut.
