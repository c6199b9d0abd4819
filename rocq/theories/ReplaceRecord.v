(** * Changing a number of a record on a page: proofs *)

From Verif Require Import Base BaseFacts UtilSpec StrModel TypesModel MarshalModel MarshalSpec MarshalMore MarshalLimits MarshalTop ValSource.
From Verif Require Import NsmModel NsmSpec NsmProofs RecordSpec RecordProofs RecordCanonSpec RecordCanon FormatSpec FormatBits PatchSpec PatchProofs ReplaceSpec ReplaceProofs.

Lemma Forall2_exchanged {A B} (R : A -> B -> Prop) l l' i x y : Forall2 R l l' -> R x y ->
  Forall2 R (exchanged l i x) (exchanged l' i y).
Proof.
  intros F H. unfold exchanged. apply Forall2_app; [apply Forall2_firstn, F|]. constructor; [exact H|]. apply Forall2_skipn, F.
Qed.

Lemma within_row (pg pg2 row : list byte) o d x bs :
  o + d <= length pg -> length row <= d -> x + length bs <= length row -> slice pg o (length row) = row ->
  slice pg2 o (length row) = write row x bs -> unchanged_but [(o, d)] pg pg2 ->
  unchanged_but [(o + x, length bs); (o + length row, d - length row)] pg pg2 /\ slice pg2 (o + x) (length bs) = bs /\
  (pg2 = write pg o (write row x bs) -> pg2 = write pg (o + x) bs).
Proof.
  intros Ho Hd Hx S1 S2 [L U].
  assert (Lw : length (write row x bs) = length row) by (apply write_length; exact Hx).
  assert (In1 : forall j, j < length row -> nth_error pg (o + j) = nth_error row j).
  { intros j Hj. rewrite <- S1, nth_error_slice. destruct (Nat.ltb_spec j (length row)); [reflexivity|lia]. }
  assert (In2 : forall j, j < length row -> nth_error pg2 (o + j) = nth_error (write row x bs) j).
  { intros j Hj. rewrite <- S2, nth_error_slice. destruct (Nat.ltb_spec j (length row)); [reflexivity|lia]. }
  assert (W : unchanged_but [(o + x, length bs); (o + length row, d - length row)] pg pg2).
  { split; [exact L|]. intros j F. inversion F as [|? ? H1 F1]; subst. inversion F1 as [|? ? H2 _]; subst. cbn [fst snd] in H1, H2.
    destruct (Nat.lt_ge_cases j o) as [Hj|Hj]; [apply U; apply Forall_cons; [cbn [fst snd]; lia|constructor]|].
    destruct (Nat.lt_ge_cases j (o + length row)) as [Hk|Hk]; [|apply U; apply Forall_cons; [cbn [fst snd]; lia|constructor]].
    replace j with (o + (j - o)) by lia. rewrite In1, In2 by lia.
    rewrite nth_error_write by lia. destruct (_ && _) eqn:E; [|reflexivity].
    apply andb_true_iff in E. rewrite Nat.leb_le, Nat.ltb_lt in E. lia. }
  split; [exact W|]. split.
  - apply list_ext. intros j. rewrite nth_error_slice. destruct (Nat.ltb_spec j (length bs)) as [Hj|Hj].
    + rewrite <- Nat.add_assoc, In2 by lia. rewrite nth_error_write by lia.
      destruct (_ && _) eqn:E; [f_equal; lia|]. apply andb_false_iff in E. rewrite Nat.leb_gt, Nat.ltb_ge in E. lia.
    + symmetry. apply nth_error_None. lia.
  - intros E2. apply list_ext. intros j.
    rewrite nth_error_write by lia.
    destruct (_ && _) eqn:E.
    + apply andb_true_iff in E. rewrite Nat.leb_le, Nat.ltb_lt in E.
      replace j with (o + (j - o)) at 1 by lia. rewrite In2 by lia. rewrite nth_error_write by lia.
      destruct (_ && _) eqn:E3; [f_equal; lia|]. apply andb_false_iff in E3. rewrite Nat.leb_gt, Nat.ltb_ge in E3. lia.
    + apply andb_false_iff in E. rewrite Nat.leb_gt, Nat.ltb_ge in E.
      destruct (Nat.lt_ge_cases j (o + length row)) as [Hk|Hk].
      * apply (proj2 W). apply Forall_cons; [cbn [fst snd]; lia|]. apply Forall_cons; [cbn [fst snd]; lia|constructor].
      * rewrite E2, nth_error_write by lia.
        destruct (_ && _) eqn:E3; [|reflexivity]. apply andb_true_iff in E3. rewrite Nat.leb_le, Nat.ltb_lt in E3. lia.
Qed.

Lemma number_on_page pf t l a pg rows vs i v r p z v' src' :
  small t -> layout_new t = Ret l -> marshallable pf l -> holds a pg rows -> Forall2 (record_of pf t l) vs rows ->
  nth_error vs i = Some v -> changed t v r p z v' -> in_range p z -> presents src' t [] v' ->
  exists row row' pg1 pg2 o x,
    get_row a pg i = Ret row /\ encode_with_source pf src' l row = Ret (row', length row) /\
    remove_row a pg i = Ret pg1 /\ insert_row a pg1 i row' = Ret pg2 /\
    holds a pg2 (exchanged rows i row') /\ Forall2 (record_of pf t l) (exchanged vs i v') (exchanged rows i row') /\
    aligned_row_offset a pg i = Ret o /\ x + width p <= length row /\
    slice pg2 (o + x) (width p) = le_bytes (width p) z /\
    unchanged_but [(o + x, width p); (o + length row, align_up (length row) a - length row)] pg pg2 /\
    (S i = length vs \/ Nat.divide a (length row) -> pg2 = write pg (o + x) (le_bytes (width p) z)) /\
    (reaches t r (TPrim p) -> exists f, In f (l_fixed l) /\ f_path f = r /\ f_kind f = FPrim p /\ x = f_offset f).
Proof.
  intros Hs Hl Hm Hh Hv Hi Hc Hz Hp'.
  pose proof (Forall2_nth_error _ _ _ Hv i) as N. rewrite Hi in N.
  destruct (nth_error rows i) as [row|] eqn:Er; [|contradiction].
  destruct (record_reads pf t l Hs Hl Hm v row N) as [Pr Sz].
  destruct (canon pf t [] l row (length row) v Hs Hl Hm Sz (le_n _) Pr) as [Ht Hcan].
  destruct (Hcan _ Pr) as [Hn He].
  destruct (patched_any pf _ src' t l v r p z v' (length row) row Hs Hl Hm Pr Ht Hc Hz Hp' Hn (le_n _))
    as (b1 & x & E1 & Hx & E2 & P2 & Hf).
  rewrite He in E1. injection E1 as <-.
  set (bs := le_bytes (width p) z) in *.
  assert (Lb : length bs = width p) by apply le_bytes_length.
  assert (Lw : length (write row x bs) = length row) by (apply write_length; lia).
  destruct (replaced_bytes a pg rows i row (write row x bs) Hh Er ltac:(rewrite Lw; reflexivity))
    as (pg1 & pg2 & o & R1 & R2 & Ro & Rin & S1 & S2 & _ & R3). destruct (R3 Lw) as [U X]. clear R3.
  pose proof (rep_pos (holds_rep _ _ _ Hh)) as Ha.
  destruct (replaced_holds a pg rows i row (write row x bs) Hh Er ltac:(rewrite Lw; apply UtilProofs.align_up_ge, Ha))
    as (pg1' & pg2' & R1' & R2' & _ & _ & H2).
  assert (pg1' = pg1) as -> by congruence. assert (pg2' = pg2) as -> by congruence.
  rewrite Lw in S2.
  destruct (within_row pg pg2 row o (align_up (length row) a) x bs) as (W1 & W2 & W3);
    try assumption; [apply UtilProofs.align_up_ge, Ha|lia|].
  rewrite Lb in W1, W2.
  exists row, (write row x bs), pg1, pg2, o, x.
  split. { rewrite (proj2 (rep_shows (holds_rep _ _ _ Hh)) i), Er. reflexivity. }
  split; [exact E2|]. split; [exact R1|]. split; [exact R2|]. split; [exact H2|]. split.
  { apply Forall2_exchanged; [exact Hv|]. exists src', (length row), row, (write row x bs).
    split; [exact Hp'|]. split; [exact (changed_typed _ _ _ _ _ _ Hc Ht Hz)|]. split.
    - rewrite <- Hn. pose proof (changed_typed _ _ _ _ _ _ Hc Ht Hz) as Ht'.
      destruct (encode_same pf _ _ _ _ _ _ Hl Hp' (every_value_presented _ _ Ht')) as [S3 _].
      destruct (encode_same pf _ _ _ _ _ _ Hl Pr (every_value_presented _ _ Ht)) as [S4 _].
      rewrite <- S3, <- S4. pose proof (changed_differ _ _ _ _ _ _ Hc) as D. apply size_same; apply D.
    - split; [lia|]. split; [exact E2|]. rewrite <- Lw. symmetry. apply firstn_all. }
  split; [exact Ro|]. split; [lia|]. split; [exact W2|]. split; [exact W1|]. split; [|exact Hf].
  intros Hcase. apply W3, X. destruct Hcase as [Hcase|Hcase]; [left|right; exact Hcase].
  rewrite Hcase. clear -Hv. induction Hv; cbn; congruence.
Qed.
