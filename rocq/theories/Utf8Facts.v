(** * UTF-8: decoding is the partial inverse of encoding *)

From Coq Require Import ZifyBool ZifyNat ZifyN.
From Verif Require Import Base BaseFacts StrModel Utf8Model.
Local Open Scope Z_scope.
Ltac Zify.zify_post_hook ::= Z.div_mod_to_equations.

Lemma b2z_z2b_small z : 0 <= z < 256 -> b2z (z2b z) = z.
Proof. intros H. rewrite b2z_z2b. apply Z.mod_small. exact H. Qed.

Lemma utf8_char_nonempty c : utf8_char c <> [].
Proof. unfold utf8_char. repeat match goal with |- context [if ?b then _ else _] => destruct b end; discriminate. Qed.

Ltac b2z_small := repeat (rewrite b2z_z2b_small by lia).

Lemma utf8_decode_char c bs : is_char c = true -> utf8_decode (utf8_char c ++ bs) = option_map (cons c) (utf8_decode bs).
Proof.
  intros Hc. unfold is_char in Hc. unfold utf8_char.
  destruct (Z.ltb_spec c 0x80) as [H1|H1].
  { cbn [app utf8_decode]. b2z_small. destruct (Z.leb_spec c 0x7F); [reflexivity|lia]. }
  destruct (Z.ltb_spec c 0x800) as [H2|H2].
  { cbn [app utf8_decode]. b2z_small.
    replace (0xC0 + c / 64 <=? 0x7F) with false by lia.
    replace ((0xC2 <=? 0xC0 + c / 64) && (0xC0 + c / 64 <=? 0xDF)) with true by lia.
    unfold is_cont. replace ((0x80 <=? 0x80 + c mod 64) && (0x80 + c mod 64 <=? 0xBF)) with true by lia.
    f_equal. f_equal. lia. }
  destruct (Z.ltb_spec c 0x10000) as [H3|H3].
  { cbn [app utf8_decode]. b2z_small.
    replace (0xE0 + c / 4096 <=? 0x7F) with false by lia.
    replace ((0xC2 <=? 0xE0 + c / 4096) && (0xE0 + c / 4096 <=? 0xDF)) with false by lia.
    replace ((0xE0 <=? 0xE0 + c / 4096) && (0xE0 + c / 4096 <=? 0xEF)) with true by lia.
    unfold is_cont. replace ((0x80 <=? 0x80 + c mod 64) && (0x80 + c mod 64 <=? 0xBF)) with true by lia.
    cbv zeta. rewrite andb_true_r.
    match goal with |- (if ?b then _ else _) = _ => replace b with true end.
    - f_equal. f_equal. lia.
    - symmetry. destruct (Z.eqb_spec (0xE0 + c / 4096) 0xE0), (Z.eqb_spec (0xE0 + c / 4096) 0xED); lia. }
  cbn [app utf8_decode]. b2z_small.
  replace (0xF0 + c / 262144 <=? 0x7F) with false by lia.
  replace ((0xC2 <=? 0xF0 + c / 262144) && (0xF0 + c / 262144 <=? 0xDF)) with false by lia.
  replace ((0xE0 <=? 0xF0 + c / 262144) && (0xF0 + c / 262144 <=? 0xEF)) with false by lia.
  replace ((0xF0 <=? 0xF0 + c / 262144) && (0xF0 + c / 262144 <=? 0xF4)) with true by lia.
  unfold is_cont. replace ((0x80 <=? 0x80 + c mod 64) && (0x80 + c mod 64 <=? 0xBF)) with true by lia.
  replace ((0x80 <=? 0x80 + c / 64 mod 64) && (0x80 + c / 64 mod 64 <=? 0xBF)) with true by lia.
  cbv zeta. rewrite !andb_true_r.
  match goal with |- (if ?b then _ else _) = _ => replace b with true end.
  - f_equal. f_equal. lia.
  - symmetry. destruct (Z.eqb_spec (0xF0 + c / 262144) 0xF0), (Z.eqb_spec (0xF0 + c / 262144) 0xF4); lia.
Qed.

Lemma utf8_decode_app s bs : Forall (fun c => is_char c = true) s ->
  utf8_decode (utf8_encode s ++ bs) = option_map (app s) (utf8_decode bs).
Proof.
  induction 1 as [|c s Hc Hs IH]; cbn [utf8_encode flat_map app]; [destruct (utf8_decode bs); reflexivity|].
  rewrite <- app_assoc, utf8_decode_char by exact Hc. unfold utf8_encode in IH. rewrite IH. destruct (utf8_decode bs); reflexivity.
Qed.

Lemma utf8_decode_encode s : Forall (fun c => is_char c = true) s -> utf8_decode (utf8_encode s) = Some s.
Proof.
  intros H. rewrite <- (app_nil_r (utf8_encode s)), utf8_decode_app by exact H. cbn. rewrite app_nil_r. reflexivity.
Qed.

Lemma b2z_range b : 0 <= b2z b < 256.
Proof. unfold b2z. pose proof (Byte.to_N_bounded b). lia. Qed.

Lemma z2b_b2z' b z : z = b2z b -> z2b z = b.
Proof. intros ->. apply z2b_b2z. Qed.

Lemma utf8_decode_sound_aux n : forall bs s, (length bs <= n)%nat -> utf8_decode bs = Some s ->
  Forall (fun c => is_char c = true) s /\ utf8_encode s = bs.
Proof.
  induction n as [|n IH]; intros bs s Hn H.
  - destruct bs; [|cbn in Hn; lia]. injection H as <-. split; [constructor|reflexivity].
  - destruct bs as [|x0 r0]; [injection H as <-; split; [constructor|reflexivity]|].
    cbn [length] in Hn. cbn [utf8_decode] in H. pose proof (b2z_range x0) as R0.
    destruct (Z.leb_spec (b2z x0) 0x7F) as [H0|H0].
    { destruct (utf8_decode r0) as [s'|] eqn:E; [|discriminate]. injection H as <-.
      destruct (IH r0 s' ltac:(lia) E) as [F <-]. split.
      - constructor; [unfold is_char; lia|exact F].
      - cbn [utf8_encode flat_map]. unfold utf8_char at 1. destruct (Z.ltb_spec (b2z x0) 0x80); [|lia].
        cbn [app]. rewrite z2b_b2z. reflexivity. }
    destruct r0 as [|x1 r1]; [discriminate|]. pose proof (b2z_range x1) as R1. cbn [length] in Hn.
    destruct ((0xC2 <=? b2z x0) && (b2z x0 <=? 0xDF)) eqn:H1.
    { destruct (is_cont (b2z x1)) eqn:C1; [|discriminate]. unfold is_cont in C1.
      destruct (utf8_decode r1) as [s'|] eqn:E; [|discriminate]. injection H as <-.
      destruct (IH r1 s' ltac:(lia) E) as [F <-].
      set (c := (b2z x0 - 0xC0) * 64 + (b2z x1 - 0x80)). assert (Hr : 0x80 <= c < 0x800) by (unfold c; lia). split.
      - constructor; [unfold is_char; lia|exact F].
      - cbn [utf8_encode flat_map]. unfold utf8_char at 1.
        destruct (Z.ltb_spec c 0x80); [lia|]. destruct (Z.ltb_spec c 0x800); [|lia].
        cbn [app]. rewrite (z2b_b2z' x0) by (unfold c; lia). rewrite (z2b_b2z' x1) by (unfold c; lia). reflexivity. }
    destruct r1 as [|x2 r2]; [discriminate|]. pose proof (b2z_range x2) as R2. cbn [length] in Hn.
    destruct ((0xE0 <=? b2z x0) && (b2z x0 <=? 0xEF)) eqn:H2.
    { cbv zeta in H.
      match type of H with (if ?b then _ else _) = _ => destruct b eqn:C1; [|discriminate] end.
      destruct (utf8_decode r2) as [s'|] eqn:E; [|discriminate]. injection H as <-.
      destruct (IH r2 s' ltac:(lia) E) as [F <-]. unfold is_cont in C1.
      assert (C2 : 0x80 <= b2z x1 <= 0xBF /\ (b2z x0 = 0xE0 -> 0xA0 <= b2z x1) /\ (b2z x0 = 0xED -> b2z x1 <= 0x9F) /\ 0x80 <= b2z x2 <= 0xBF).
      { destruct (Z.eqb_spec (b2z x0) 0xE0), (Z.eqb_spec (b2z x0) 0xED); lia. } clear C1.
      set (c := (b2z x0 - 0xE0) * 4096 + (b2z x1 - 0x80) * 64 + (b2z x2 - 0x80)).
      assert (Hr : 0x800 <= c < 0x10000 /\ (c < 0xD800 \/ 0xE000 <= c)) by (unfold c; lia). split.
      - constructor; [unfold is_char; lia|exact F].
      - cbn [utf8_encode flat_map]. unfold utf8_char at 1.
        destruct (Z.ltb_spec c 0x80); [lia|]. destruct (Z.ltb_spec c 0x800); [lia|]. destruct (Z.ltb_spec c 0x10000); [|lia].
        cbn [app]. rewrite (z2b_b2z' x0) by (unfold c; lia). rewrite (z2b_b2z' x1) by (unfold c; lia).
        rewrite (z2b_b2z' x2) by (unfold c; lia). reflexivity. }
    destruct r2 as [|x3 r3]; [discriminate|]. pose proof (b2z_range x3) as R3. cbn [length] in Hn.
    destruct ((0xF0 <=? b2z x0) && (b2z x0 <=? 0xF4)) eqn:H3; [|discriminate]. cbv zeta in H.
    match type of H with (if ?b then _ else _) = _ => destruct b eqn:C1; [|discriminate] end.
    destruct (utf8_decode r3) as [s'|] eqn:E; [|discriminate]. injection H as <-.
    destruct (IH r3 s' ltac:(lia) E) as [F <-]. unfold is_cont in C1.
    assert (C2 : 0x80 <= b2z x1 <= 0xBF /\ (b2z x0 = 0xF0 -> 0x90 <= b2z x1) /\ (b2z x0 = 0xF4 -> b2z x1 <= 0x8F) /\ 0x80 <= b2z x2 <= 0xBF /\ 0x80 <= b2z x3 <= 0xBF).
    { destruct (Z.eqb_spec (b2z x0) 0xF0), (Z.eqb_spec (b2z x0) 0xF4); lia. } clear C1.
    set (c := (b2z x0 - 0xF0) * 262144 + (b2z x1 - 0x80) * 4096 + (b2z x2 - 0x80) * 64 + (b2z x3 - 0x80)).
    assert (Hr : 0x10000 <= c <= 0x10FFFF) by (unfold c; lia). split.
    + constructor; [unfold is_char; lia|exact F].
    + cbn [utf8_encode flat_map]. unfold utf8_char at 1.
      destruct (Z.ltb_spec c 0x80); [lia|]. destruct (Z.ltb_spec c 0x800); [lia|]. destruct (Z.ltb_spec c 0x10000); [lia|].
      cbn [app]. rewrite (z2b_b2z' x0) by (unfold c; lia). rewrite (z2b_b2z' x1) by (unfold c; lia).
      rewrite (z2b_b2z' x2) by (unfold c; lia). rewrite (z2b_b2z' x3) by (unfold c; lia). reflexivity.
Qed.

Lemma utf8_decode_sound bs s : utf8_decode bs = Some s -> Forall (fun c => is_char c = true) s /\ utf8_encode s = bs.
Proof. apply (utf8_decode_sound_aux (length bs)). lia. Qed.

Lemma utf8_decode_iff bs s : utf8_decode bs = Some s <-> Forall (fun c => is_char c = true) s /\ utf8_encode s = bs.
Proof. split; [apply utf8_decode_sound|]. intros [H <-]. apply utf8_decode_encode. exact H. Qed.
