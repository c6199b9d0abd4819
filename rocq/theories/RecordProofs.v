(** * Records on pages (C65) *)

From Coq Require Import Strings.String ZifyBool ZifyNat ZifyN.
From Verif Require Import Base BaseFacts UtilModel UtilSpec StrModel TypesModel MarshalModel MarshalSpec LayoutProofs LayoutCover MarshalMore MarshalLimits MarshalTop.
From Verif Require Import JsonModel JsonTop NsmModel NsmSpec NsmProofs RecordSpec.
Local Open Scope list_scope.
Local Open Scope nat_scope.

Lemma Forall2_firstn {A B} (R : A -> B -> Prop) l l' : Forall2 R l l' -> forall n, Forall2 R (firstn n l) (firstn n l').
Proof. induction 1; intros [|n]; cbn; constructor; auto. Qed.

Lemma Forall2_skipn {A B} (R : A -> B -> Prop) l l' : Forall2 R l l' -> forall n, Forall2 R (skipn n l) (skipn n l').
Proof. induction 1; intros [|n]; cbn [skipn]; auto; constructor; auto. Qed.

Lemma Forall2_nth_error {A B} (R : A -> B -> Prop) l l' : Forall2 R l l' -> forall i,
  match nth_error l i, nth_error l' i with Some x, Some y => R x y | None, None => True | _, _ => False end.
Proof. induction 1; intros [|i]; cbn; auto. apply IHForall2. Qed.

Section Records.
Variables (pf : profile) (t : ty) (l : layout).
Hypothesis Hs : small t.
Hypothesis Hl : layout_new t = Ret l.
Hypothesis Hm : marshallable pf l.

Lemma record_reads v row : record_of pf t l v row ->
  presents (marshaller_source pf l row) t [] v /\ encoding_size pf l row = Ret (List.length row).
Proof.
  intros (src & n & buf & buf' & Hp & Ht & Hn & Hb & He & ->).
  destruct (round_trip pf src t l v n buf Hs Hl Hm Hp Ht Hn Hb) as (b & E & S). rewrite He in E. injection E as <-.
  destruct (size_and_frame pf src t l v n buf Hs Hl Hm Hp Ht Hn Hb) as (_ & b & E & L & _ & F). rewrite He in E. injection E as <-.
  assert (Ln : List.length (firstn n buf') = n) by (rewrite firstn_length; lia).
  split.
  - apply S; [lia|]. rewrite firstn_firstn. f_equal. lia.
  - rewrite Ln. apply F; [lia|]. rewrite firstn_firstn. f_equal. lia.
Qed.

Lemma stores_step vop op vs rows : stores pf t l vop op -> Forall2 (record_of pf t l) vs rows ->
  Forall2 (record_of pf t l) (val_step vs vop) (spec_op rows op).
Proof.
  intros H F. destruct H; cbn [val_step spec_op]; apply Forall2_app; auto using Forall2_firstn, Forall2_skipn.
Qed.

Lemma stores_fold vops ops : Forall2 (stores pf t l) vops ops -> forall vs rows, Forall2 (record_of pf t l) vs rows ->
  Forall2 (record_of pf t l) (fold_left val_step vops vs) (fold_left spec_op ops rows).
Proof. induction 1; intros vs rows F; cbn [fold_left]; auto using stores_step. Qed.

Lemma legal_fold len a rows ops rows' : legal len a rows ops rows' -> rows' = fold_left spec_op ops rows.
Proof. induction 1; cbn [fold_left]; auto. Qed.

Lemma rep_place a pg rows i row : Rep a pg rows -> nth_error rows i = Some row ->
  exists off, aligned_row_offset a pg i = Ret off /\ Nat.divide a off /\ slice pg off (List.length row) = row.
Proof.
  intros R H. assert (i < List.length rows) by (apply nth_error_Some; congruence).
  exists (base a (List.length pg) rows (S i)). split; [apply (rep_aligned R); assumption|].
  split; [apply base_divide, (rep_div _ _ _ R)|]. apply (rep_data _ _ _ R i row H).
Qed.

Lemma records_lemma a pg pg0 ops rows vops :
  initialize_page a pg = Ret pg0 -> legal (List.length pg) a [] ops rows -> Forall2 (stores pf t l) vops ops ->
  let vs := fold_left val_step vops [] in
  exists pg', foldM (apply_op a) ops pg0 = Ret pg' /\ num_rows pg' = Ret (List.length vs) /\
    forall i, match nth_error vs i with
      | Some v => exists row off, get_row a pg' i = Ret row /\
          presents (marshaller_source pf l row) t [] v /\ encoding_size pf l row = Ret (List.length row) /\
          aligned_row_offset a pg' i = Ret off /\ Nat.divide a off /\ slice pg' off (List.length row) = row
      | None => get_row a pg' i = Panic
      end.
Proof.
  intros Hi Hg Hv vs. pose proof (stores_fold _ _ Hv [] [] ltac:(constructor)) as F. fold vs in F.
  rewrite <- (legal_fold _ _ _ _ _ Hg) in F.
  destruct (history_refines a pg pg0 ops rows Hi Hg) as (pg' & E & _ & (N & G)). exists pg'. split; [exact E|].
  assert (R : Rep a pg' rows) by (apply holds_rep; exists pg, pg0, ops; auto).
  split; [rewrite N; f_equal; symmetry; clear - F; induction F; cbn; auto|].
  intros i. pose proof (Forall2_nth_error _ _ _ F i) as P. specialize (G i).
  destruct (nth_error vs i) as [v|], (nth_error rows i) as [row|] eqn:Er; try contradiction; auto.
  destruct (record_reads _ _ P) as [P1 P2]. destruct (rep_place _ _ _ _ _ R Er) as (off & O1 & O2 & O3).
  exists row, off. auto 10.
Qed.

Lemma record_json fl v row src : record_of pf t l v row -> presents src t [] v ->
  json_encode fl t (marshaller_source pf l row) = json_encode fl t src.
Proof. intros H P. destruct (record_reads _ _ H) as [P1 _]. apply (emit_same fl t _ _ _ _ P1 P). Qed.

(** A record that fits is accepted; the fit is decided by comparing the predicted size with the reported capacity. *)
Lemma record_fits a pg rows src v n m : holds a pg rows -> presents src t [] v -> typed t v ->
  encoding_size_with_source src l = Ret n -> 0 < n -> max_insert_row_size a pg = Ret m ->
  exists row, encode_with_source pf src l (repeat x00 n) = Ret (row, n) /\ record_of pf t l v row /\ List.length row = n /\
    ((exists pg', append_row a pg row = Ret pg') <-> n <= m).
Proof.
  intros H Hp Ht Hn H0 Hc.
  assert (Hb : n <= List.length (repeat x00 n)) by (rewrite repeat_length; lia).
  destruct (round_trip pf src t l v n _ Hs Hl Hm Hp Ht Hn Hb) as (row & E & _). exists row.
  pose proof (encode_length _ _ _ _ _ _ E) as Le. rewrite repeat_length in Le.
  split; [exact E|]. split.
  { exists src, n, (repeat x00 n), row. repeat (split; [assumption|]). rewrite firstn_all2 by lia. reflexivity. }
  split; [exact Le|]. rewrite (rep_max_insert (holds_rep _ _ _ H)) in Hc. injection Hc as <-. rewrite <- Le.
  apply (accepts_iff a pg rows row 0 H); [|lia]. intros ->. cbn in Le. lia.
Qed.
End Records.

Lemma stored_aligned t l a pg rows i off addr f : layout_new t = Ret l -> holds a pg rows -> Nat.divide (l_align l) a ->
  Nat.divide a addr -> aligned_row_offset a pg i = Ret off -> In f (l_fixed l) ->
  Nat.divide (field_size f) (addr + off + f_offset f).
Proof.
  intros Hl H Ha Hd Ho Hf. apply holds_rep in H. apply (fields_aligned t [] l f _ Hl Hf).
  destruct (Nat.lt_ge_cases i (List.length rows)) as [Hi|Hi].
  - rewrite (rep_aligned H) in Ho by exact Hi. injection Ho as <-. apply Nat.divide_add_r.
    + eapply Nat.divide_trans; eassumption.
    + eapply Nat.divide_trans; [exact Ha|]. apply base_divide, (rep_div _ _ _ H).
  - rewrite (rep_aligned_panic H) in Ho by exact Hi. discriminate.
Qed.
