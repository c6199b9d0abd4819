(** * Proofs about white space between the symbols of JSON texts *)

From Coq Require Import Strings.String Sorting.Permutation.
From Verif Require Import Base StrModel Utf8Model TypesModel MarshalModel MarshalSpec JsonModel JsonSpec WhiteSpec JsonDocSpec JsonDocProofs JsonCutSpec JsonCutProofs JsonRewriteSpec JsonSpaceSpec.
Local Open Scope list_scope.
Local Open Scope Z_scope.

Section Space.
Context (alnum : Z -> bool) (fl : floats).

Let reads := reads alnum.
Let document := document alnum fl.
Let elements := elements alnum fl.
Let members := members alnum fl.

(** ** Texts that are read alike *)

Inductive moved (q q' : str) : str -> str -> Prop :=
| mv_same s : moved q q' s s
| mv_here : moved q q' q q'
| mv_next s s' x r r' : reads s x r -> reads s' x r' -> moved q q' r r' -> moved q q' s s'.

Lemma moved_sym q q' s s' : moved q q' s s' -> moved q' q s' s.
Proof. intros M. induction M as [s| |s s' x r r' R R' M IH]; [apply mv_same|apply mv_here|exact (mv_next _ _ _ _ x _ _ R' R IH)]. Qed.

Section Alike.
Context (q q' : str) (alike : forall x r, reads q x r -> reads q' x r).

Lemma moved_reads s s' x r : moved q q' s s' -> reads s x r -> exists r', reads s' x r' /\ moved q q' r r'.
Proof.
  intros M R. destruct M as [s| |s s' y t t' Y Y' M].
  - exists r. split; [exact R|apply mv_same].
  - exists r. split; [exact (alike _ _ R)|apply mv_same].
  - destruct (reads_det alnum _ _ _ _ _ R Y) as [-> ->]. exists t'. auto.
Qed.

Lemma moved_either s s' x r : moved q q' s s' -> reads s (SNumber x) r \/ reads s (SText x) r ->
  exists r', (reads s' (SNumber x) r' \/ reads s' (SText x) r') /\ moved q q' r r'.
Proof. intros M [R|R]; destruct (moved_reads _ _ _ _ M R) as (r' & R' & M'); exists r'; auto. Qed.

Lemma moved_separated b s s' r : moved q q' s s' -> separated alnum b s r -> exists r', separated alnum b s' r' /\ moved q q' r r'.
Proof. intros M S. destruct b; cbn in S |- *; [subst r; exists s'; auto|exact (moved_reads _ _ _ _ M S)]. Qed.

Ltac step M R N r' := let R' := fresh "R'" in destruct (moved_reads _ _ _ _ M R) as (r' & R' & N).

Lemma moved_document t s v r : document t s v r -> forall s', moved q q' s s' -> exists r', document t s' v r' /\ moved q q' r r'.
Proof.
  intros D.
  apply (document_mind alnum fl
    (fun t s v r => forall s', moved q q' s s' -> exists r', document t s' v r' /\ moved q q' r r')
    (fun b ts s vs r => forall s', moved q q' s s' -> exists r', elements b ts s' vs r' /\ moved q q' r r')
    (fun b ms s r => forall s', moved q q' s s' -> exists r', members b ms s' r' /\ moved q q' r r')); try exact D.
  - intros a b R s' M. step M R M1 r1. exists r1. split; [now apply dc_unit|assumption].
  - intros a b R s' M. step M R M1 r1. exists r1. split; [now apply dc_true|assumption].
  - intros a b R s' M. step M R M1 r1. exists r1. split; [now apply dc_false|assumption].
  - intros a c b R s' M. step M R M1 r1. exists r1. split; [now apply dc_char|assumption].
  - intros p a x z b I R N G s' M. destruct (moved_either _ _ _ _ M R) as (r1 & R1 & M1). exists r1. split; [|exact M1]. exact (dc_integer alnum fl _ _ _ _ _ I R1 N G).
  - intros p a x z b I R N s' M. destruct (moved_either _ _ _ _ M R) as (r1 & R1 & M1). exists r1. split; [|exact M1]. exact (dc_float alnum fl _ _ _ _ _ I R1 N).
  - intros a x b R s' M. step M R M1 r1. exists r1. split; [now apply dc_string|assumption].
  - intros ts vs a s1 s2 b R _ IH R2 s' M. step M R M1 r1. destruct (IH _ M1) as (r2 & E & M2). step M2 R2 M3 r3.
    exists r3. split; [|assumption]. eapply dc_tuple; eassumption.
  - intros fs vs ms a s1 s2 b N L P R _ IH R2 s' M. step M R M1 r1. destruct (IH _ M1) as (r2 & E & M2). step M2 R2 M3 r3.
    exists r3. split; [|assumption]. eapply dc_struct; eassumption.
  - intros cs k l u v0 a s1 s2 s3 s4 s5 s6 s7 s8 b Nk Last R0 R1 R2 R3 R4 R5 R6 _ IH R8 s' M.
    step M R0 M1 r1. step M1 R1 M2 r2. step M2 R2 M3 r3. step M3 R3 M4 r4. step M4 R4 M5 r5. step M5 R5 M6 r6. step M6 R6 M7 r7.
    destruct (IH _ M7) as (r8 & D8 & M8). step M8 R8 M9 r9. exists r9. split; [|exact M9].
    eapply (dc_enum alnum fl cs k l u v0); eassumption.
  - intros b s0 s' M. exists s'. split; [apply el_nil|exact M].
  - intros b u ts v0 vs a s0 s1 b1 S _ IH _ IH2 s' M. destruct (moved_separated _ _ _ _ M S) as (r1 & S1 & M1).
    destruct (IH _ M1) as (r2 & D2 & M2). destruct (IH2 _ M2) as (r3 & D3 & M3). exists r3. split; [|exact M3]. eapply el_cons; eassumption.
  - intros b s0 s' M. exists s'. split; [apply mb_nil|exact M].
  - intros b l u v0 ms a s0 s1 s2 s3 b1 S R1 R2 _ IH _ IH2 s' M. destruct (moved_separated _ _ _ _ M S) as (r1 & S1 & M1).
    step M1 R1 M2 r2. step M2 R2 M3 r3. destruct (IH _ M3) as (r4 & D4 & M4). destruct (IH2 _ M4) as (r5 & D5 & M5).
    exists r5. split; [|exact M5]. eapply mb_cons; eassumption.
Qed.

Lemma moved_stands pf t s s' v : all_structs (fun n => (n < 64)%nat) t -> moved q q' s s' -> stands_for alnum fl pf t s v -> stands_for alnum fl pf t s' v.
Proof.
  intros W M H. apply (decode_exact alnum fl pf t s [] v W) in H. destruct H as (r & x & r0 & D & R).
  apply (decode_exact alnum fl pf t s' [] v W). destruct (moved_document _ _ _ _ D _ M) as (r1 & D1 & M1).
  destruct (moved_reads _ _ _ _ M1 R) as (r2 & R2 & _). exists r1, x, r2. auto.
Qed.

End Alike.

(** ** The same symbols *)

Lemma symbols_moved s l s' : symbols alnum s l -> symbols alnum s' l -> moved [] [] s s'.
Proof.
  intros H. revert s'. induction H as [s E|s x r l N R H IH]; intros s' H'.
  - inversion H' as [s0 E'|]; subst. exact (mv_next _ _ _ _ _ _ _ E E' (mv_same _ _ _)).
  - inversion H' as [|s0 x0 r' l0 N' R' T']; subst. exact (mv_next _ _ _ _ _ _ _ R R' (IH _ T')).
Qed.

Lemma symbols_stand pf t s s' l v : all_structs (fun n => (n < 64)%nat) t -> symbols alnum s l -> symbols alnum s' l ->
  (stands_for alnum fl pf t s v <-> stands_for alnum fl pf t s' v).
Proof.
  intros W H H'. split; apply (moved_stands [] []); auto; eapply symbols_moved; eassumption.
Qed.

(** ** White space *)

Let white (w : str) : Prop := Forall (fun c => In c white_space) w.

Lemma white_front w s x r : white w -> reads s x r -> reads (w ++ s) x r.
Proof. intros F R. induction F as [|c w C F IH]; [exact R|]. cbn [app]. now apply rd_white. Qed.

Lemma some_symbol_back w s x r : white w -> reads (w ++ s) x r -> reads s x r.
Proof.
  intros F R. induction F as [|c w C F IH]; [exact R|]. apply IH. clear IH F.
  assert (Wc : c <> 34 /\ ~ number_char c /\ ~ In c (lit "[]{},:") /\ c <> 110 /\ c <> 116 /\ c <> 102).
  { split; [|split; [apply mark_no_number; now left|]]; cbn in C |- *; repeat (destruct C as [C|C]; [subst; lia|]); contradiction. }
  destruct Wc as (W1 & W2 & W3 & W4 & W5 & W6).
  remember ((c :: w) ++ s) as z eqn:Z. cbn [app] in Z. destruct R as [d z x r I R| |d r I|u r I N|z r x R|p r L N]; try discriminate Z.
  - injection Z as -> ->. exact R.
  - injection Z as -> _. contradiction.
  - exfalso. cbn in I. repeat (destruct I as [I|I]; [subst u; cbn in Z; injection Z; intros; congruence|]). contradiction.
  - injection Z as Z _. symmetry in Z. contradiction.
  - exfalso. destruct L as (L & _ & _). pose proof (lexeme_chars alnum fl _ L) as F. destruct p as [|y p].
    + destruct L as (sg & i & f & e & E & _ & I & _). symmetry in E. apply app_eq_nil in E. destruct E as [_ E]. apply app_eq_nil in E. destruct E as [-> _].
      destruct I as [I|(a & ds & I & _)]; discriminate I.
    + cbn [app] in Z. injection Z as -> _. inversion F; subst. contradiction.
Qed.

Section Boundary.
Hypothesis white_not_alnum : forall c, In c white_space -> alnum c = false.

Lemma mark_word c : mark c -> ~ word_character alnum c.
Proof.
  intros H N. destruct H as [H|H].
  - pose proof (white_not_alnum _ H) as A. unfold word_character in N. destruct N as [N|[N|[N|[_ N]]]]; [..|congruence];
      cbn in H; repeat (destruct H as [H|H]; [lia|]); contradiction.
  - unfold word_character in N. cbn in H. repeat (destruct H as [H|H]; [lia|]). contradiction.
Qed.

Lemma contents_change s r x : contents s r x -> forall k, r = 34 :: k -> exists p, s = p ++ 34 :: k /\ forall k', contents (p ++ 34 :: k') (34 :: k') x.
Proof.
  intros H. induction H as [r|c s r x A B C H IH|c e s r x I H IH|ds s r x X S H IH]; intros k Er.
  - exists []. split; [exact Er|]. intros k'. constructor.
  - destruct (IH _ Er) as (p & -> & P). exists (c :: p). split; [reflexivity|]. intros k'. cbn [app]. constructor; auto.
  - destruct (IH _ Er) as (p & -> & P). exists (92 :: c :: p). split; [reflexivity|]. intros k'. cbn [app]. econstructor; eauto.
  - destruct (IH _ Er) as (p & -> & P). exists (92 :: 117 :: ds ++ p). split; [cbn [app]; rewrite <- app_assoc; reflexivity|].
    intros k'. cbn [app]. rewrite <- app_assoc. apply ct_unicode; [|exact S|apply P].
    destruct X as (X1 & X2 & X3). split; [exact X1|]. split; [exact X2|]. intros L. destruct (X3 L) as (c & r' & E & Hc).
    destruct p as [|y p]; cbn [app] in *; injection E as -> _; eauto.
Qed.

Lemma number_change p r r' : longest_number (p ++ r) p -> ~ incomplete_exponent (p ++ r) -> ends_before (SNumber p) r -> ends_before (SNumber p) r' ->
  longest_number (p ++ r') p /\ ~ incomplete_exponent (p ++ r').
Proof.
  intros (L1 & L2 & L3) N En En'. split.
  - split; [exact L1|]. split; [exists r'; reflexivity|]. intros p' k E Lx.
    destruct En' as [->|(c & k' & -> & M)].
    + rewrite app_nil_r in E. subst p. rewrite app_length. lia.
    + symmetry in E. destruct (before_mark _ _ _ _ _ (lexeme_chars alnum fl _ Lx) M E) as (z & -> & _). rewrite app_length. lia.
  - intros (sg & i & f & k & E & S & I & F & (e & s2 & r2 & -> & He & Hs & Hd & Hz)). apply N.
    assert (E' : ((sg ++ i ++ f) ++ e :: s2) ++ r2 = p ++ r') by (rewrite E, <- !app_assoc; reflexivity).
    assert (U : Forall number_char ((sg ++ i ++ f) ++ e :: s2)) by (apply Forall_app; split; [now apply (part_chars alnum fl)|now apply (exp_chars alnum fl)]).
    assert (exists z, p = ((sg ++ i ++ f) ++ e :: s2) ++ z /\ r2 = z ++ r') as (z & -> & ->).
    { destruct En' as [->|(c & k' & -> & M)]; [|exact (before_mark _ _ _ _ _ U M E')]. rewrite app_nil_r in E'. exists r2. rewrite app_nil_r. auto. }
    exists sg, i, f, (e :: s2 ++ z ++ r). split; [rewrite <- !app_assoc; reflexivity|]. repeat split; try assumption.
    exists e, s2, (z ++ r). split; [reflexivity|]. split; [exact He|]. split; [exact Hs|].
    destruct z as [|y z]; cbn [app] in *; [|auto].
    destruct En as [->|(c & k & -> & M)]; [auto|]. pose proof (mark_no_number _ M) as Nc. unfold number_char in Nc. split; intros; lia.
Qed.

Lemma reads_change s x r : reads s x r -> x <> SEnd -> ends_before x r -> exists p, s = p ++ r /\ forall r', ends_before x r' -> reads (p ++ r') x r'.
Proof.
  intros R. induction R as [c s x r I R IH| |c r I|w r I N|s r x C|p r L N]; intros Nx En.
  - destruct (IH Nx En) as (p & -> & P). exists (c :: p). split; [reflexivity|]. intros r' E. cbn [app]. apply rd_white; [exact I|]. now apply P.
  - congruence.
  - exists [c]. split; [reflexivity|]. intros r' _. now apply rd_punct.
  - exists w. split; [reflexivity|]. intros r' E. apply rd_word; [exact I|]. intros c k Ek. subst r'. destruct E as [E|(c' & k' & E & M)]; [discriminate|].
    injection E as <- _. now apply mark_word.
  - destruct (contents_change _ _ _ C r eq_refl) as (p & -> & P). exists (34 :: p ++ [34]). split; [cbn [app]; rewrite <- app_assoc; reflexivity|].
    intros r' _. cbn [app]. rewrite <- app_assoc. apply rd_text. apply P.
  - exists p. split; [reflexivity|]. intros r' E. destruct (number_change _ _ _ L N En E). now apply rd_number.
Qed.

Lemma ends_longer x p w q : white w -> ends_before x (p ++ q) -> ends_before x (p ++ w ++ q).
Proof.
  intros F En. destruct x; cbn [ends_before] in *; try exact I;
    (destruct p as [|y p]; cbn [app] in *;
      [destruct F as [|c w C F]; [exact En|right; exists c, (w ++ q); split; [reflexivity|now left]]
      |right; destruct En as [En|(c & r' & En & M)]; [discriminate|]; injection En as -> _; exists c, (p ++ w ++ q); auto]).
Qed.

Lemma after_moved s q : after_symbols alnum s q -> exists p, s = p ++ q /\ forall w, white w -> moved q (w ++ q) s (p ++ w ++ q).
Proof.
  intros H. induction H as [s|s x r q Nx R En H IH].
  - exists []. split; [reflexivity|]. intros w F. apply mv_here.
  - destruct IH as (p & -> & P). destruct (reads_change _ _ _ R Nx En) as (p1 & -> & P1). exists (p1 ++ p). split; [apply app_assoc|].
    intros w F. rewrite <- app_assoc. apply (mv_next _ _ _ _ x (p ++ q) (p ++ w ++ q)); [exact R| |exact (P w F)].
    apply P1. now apply ends_longer.
Qed.

Lemma space_stands pf t p w q v : all_structs (fun n => (n < 64)%nat) t -> white w -> after_symbols alnum (p ++ q) q ->
  (stands_for alnum fl pf t (p ++ q) v <-> stands_for alnum fl pf t (p ++ w ++ q) v).
Proof.
  intros W F H. destruct (after_moved _ _ H) as (p' & E & M). apply app_inv_tail in E. subst p'. specialize (M w F). split.
  - apply (moved_stands q (w ++ q)); [|exact W|exact M]. intros x r R. now apply white_front.
  - apply (moved_stands (w ++ q) q); [|exact W|now apply moved_sym]. intros x r R. now apply some_symbol_back in R.
Qed.

End Boundary.
End Space.
