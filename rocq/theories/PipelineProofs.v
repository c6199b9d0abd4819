(** * JSON texts and pages (C77) *)

From Coq Require Import Strings.String ZifyBool ZifyNat ZifyN.
From Verif Require Import Base BaseFacts UtilModel UtilSpec UtilProofs StrModel Utf8Model TypesModel MarshalModel MarshalSpec LayoutProofs LayoutCover MarshalMore MarshalLimits MarshalProofs MarshalTop ValSource.
From Verif Require Import JsonModel JsonSpec JsonTop JsonDocSpec JsonDocProofs SqlWords SqlParseModel TypeParseModel TypeGrammar TypeParsed TypeUseSpec TypeUse NsmModel NsmSpec NsmProofs RecordSpec RecordProofs PipelineSpec.
Local Open Scope list_scope.
Local Open Scope nat_scope.

Section Pipeline.
Context (alnum : Z -> bool) (fl : floats) (pf : profile) (s : str) (t : ty) (l : layout) (a : nat).
Hypothesis Hparse : parse_type s = Ret (Ok t).
Hypothesis Hrep : no_repeats t.
Hypothesis H64 : all_structs (fun n => n < 64) t.
Hypothesis Hs : small t.
Hypothesis Hl : layout_new t = Ret l.
Hypothesis Hm : marshallable pf l.

(** Put one value on a page. *)
Definition put (pg : page) (v : val) : outcome (result page jerr) :=
  n <- encoding_size_with_source (val_source v) l ;;
  '(row, _) <- encode_with_source pf (val_source v) l (repeat x00 n) ;;
  pg' <- append_row a pg row ;;
  Ret (Ok pg').

Fixpoint puts (vs : list val) (pg : page) : outcome (result page jerr) :=
  match vs with
  | [] => Ret (Ok pg)
  | v :: vs => r <- put pg v ;; match r with Ok pg' => puts vs pg' | Err e => Ret (Err e) end
  end.

Definition decodes (text : str) (v : val) : Prop :=
  exists d, json_decode alnum fl pf t text [] = Ret (d, Ok tt) /\ presents (ds_source d) t [] v.

Lemma load_one_put text v : decodes text v -> typed t v -> forall pg, load_one alnum fl pf t l a pg text = put pg v.
Proof.
  intros (d & E & P) T pg. unfold load_one, put. rewrite E. cbn [bind].
  destruct (encode_same pf (val_source v) (ds_source d) t [] l v Hl (every_value_presented _ _ T) P) as [E1 E2].
  rewrite E1. destruct (encoding_size_with_source (val_source v) l); cbn [bind]; try reflexivity. rewrite E2. reflexivity.
Qed.

Lemma load_puts texts vs : Forall2 decodes texts vs -> Forall (typed t) vs -> forall pg, load alnum fl pf t l a texts pg = puts vs pg.
Proof.
  induction 1 as [|text v texts vs D F IH]; intros T pg; cbn [load puts]; [reflexivity|].
  inversion T; subst. rewrite (load_one_put text v) by assumption.
  destruct (put pg v) as [[pg'|e]| |]; cbn [bind]; auto.
Qed.

(** ** Dumping *)

Definition shown (v : val) (bs : list byte) : Prop := json_encode fl t (val_source v) = Ret bs.

Lemma shown_text v : typed t v -> json_value fl t v -> exists bs text, shown v bs /\ utf8_decode bs = Some text /\ decodes text v.
Proof.
  intros T J. destruct (parsed_json_round_trip alnum fl pf s t v (val_source v) [] Hparse Hrep (every_value_presented _ _ T) J)
    as (bs & text & d & E1 & E2 & E3 & E4).
  exists bs, text. split; [exact E1|]. split; [exact E2|]. exists d. auto.
Qed.

Lemma shown_texts vs : Forall (typed t) vs -> Forall (json_value fl t) vs ->
  exists outs texts, Forall2 shown vs outs /\ Forall2 (fun bs text => utf8_decode bs = Some text) outs texts /\ Forall2 decodes texts vs.
Proof.
  induction vs as [|v vs IH]; intros T J; [exists [], []; repeat split; constructor|].
  inversion T; subst. inversion J; subst. destruct IH as (outs & texts & A & B & C); try assumption.
  destruct (shown_text v) as (bs & text & P & Q & R); try assumption.
  exists (bs :: outs), (text :: texts). repeat split; constructor; assumption.
Qed.

Lemma record_typed v row : record_of pf t l v row -> typed t v.
Proof. intros (src & n & buf & buf' & _ & T & _). exact T. Qed.

Lemma dump_from pg vs : forall rows outs i, Forall2 (record_of pf t l) vs rows -> Forall2 shown vs outs ->
  (forall k row, nth_error rows k = Some row -> get_row a pg (i + k) = Ret row) ->
  dump_rows fl pf t l a pg i (List.length rows) = Ret outs.
Proof.
  induction vs as [|v vs IH]; intros rows outs i R O G; inversion R; subst; inversion O; subst; cbn [List.length dump_rows]; [reflexivity|].
  rewrite <- (Nat.add_0_r i) at 1. rewrite (G 0 y) by reflexivity. cbn [bind].
  rewrite (record_json pf t l Hs Hl Hm fl v y (val_source v)); [|assumption|].
  2:{ apply every_value_presented. eapply record_typed. eassumption. }
  match goal with H : shown v _ |- _ => unfold shown in H; rewrite H end. cbn [bind].
  rewrite (IH l' l'0 (S i)); [reflexivity|assumption|assumption|].
  intros k row E. rewrite Nat.add_succ_comm. apply G. exact E.
Qed.

Lemma dump_shown pg rows vs outs : holds a pg rows -> Forall2 (record_of pf t l) vs rows -> Forall2 shown vs outs ->
  dump fl pf t l a pg = Ret outs.
Proof.
  intros H R O. apply holds_rep in H. unfold dump. rewrite (rep_num_rows H). cbn [bind].
  apply (dump_from pg vs rows outs 0 R O). intros k row E. apply (rep_get_row H). exact E.
Qed.

(** ** Loading *)

Lemma put_record v n : typed t v -> encoding_size_with_source (val_source v) l = Ret n ->
  exists row, encode_with_source pf (val_source v) l (repeat x00 n) = Ret (row, n) /\ record_of pf t l v row /\ List.length row = n.
Proof.
  intros T Hn. pose proof (every_value_presented _ _ T) as P.
  assert (Hb : n <= List.length (repeat x00 n)) by (rewrite repeat_length; lia).
  destruct (round_trip pf (val_source v) t l v n _ Hs Hl Hm P T Hn Hb) as (row & E & _). exists row.
  pose proof (encode_length _ _ _ _ _ _ E) as Le. rewrite repeat_length in Le. split; [exact E|]. split; [|exact Le].
  exists (val_source v), n, (repeat x00 n), row. repeat (split; [assumption|]). rewrite firstn_all2 by lia. reflexivity.
Qed.

Lemma record_size v row : record_of pf t l v row -> encoding_size_with_source (val_source v) l = Ret (List.length row).
Proof.
  intros (src & n & buf & buf' & P & T & Hn & Hb & He & ->).
  destruct (encode_same pf src (val_source v) t [] l v Hl P (every_value_presented _ _ T)) as [E _]. rewrite E, Hn.
  apply encode_length in He. rewrite firstn_length. f_equal. lia.
Qed.

Lemma field_size_pos vo f : well_placed vo f -> 0 < field_size f.
Proof. intros (_ & _ & W). unfold field_size. destruct (f_kind f) as [p| |i p|p o n]; try (destruct W; fail); try destruct p; cbn; lia. Qed.

(** Records that have a field are not empty. *)
Lemma record_nonempty src n : l_fixed l <> [] -> encoding_size_with_source src l = Ret n -> 0 < n.
Proof.
  intros Hf Hn. pose proof (calculate_layout_ok _ _ _ Hl) as Ok. pose proof (lo_place _ _ Ok) as Pl. clear Hl Hm Ok.
  destruct l as [al vo ix fx vs]. cbn [l_fixed l_var_off encoding_size_with_source] in *.
  destruct fx as [|f fx]; [congruence|]. inversion Pl as [|? ? W _]; subst.
  inv_bind Hn. apply size_loop_ge in Ha. apply align_nat_inv in Hn as (Hp & _ & _ & ->).
  pose proof (field_size_pos _ _ W). destruct W as (W & _ & _).
  pose proof (align_up_ge a0 al). apply pow2_pos in Hp. lia.
Qed.

Lemma puts_holds vs : l_fixed l <> [] -> Forall (typed t) vs -> forall pg vs0 rows0 pg',
  holds a pg rows0 -> Forall2 (record_of pf t l) vs0 rows0 -> puts vs pg = Ret (Ok pg') ->
  exists rows, holds a pg' rows /\ Forall2 (record_of pf t l) (vs0 ++ vs) rows.
Proof.
  intros Hf. induction vs as [|v vs IH]; intros T pg vs0 rows0 pg' H R E; cbn [puts] in E.
  - injection E as <-. exists rows0. rewrite app_nil_r. auto.
  - inversion T as [|? ? Tv Tvs]; subst. inv_bind E. unfold put in Ha. inv_bind Ha. rename a1 into n.
    destruct (put_record v n Tv Ha0) as (row & Er & Rr & Lr). rewrite Er in Ha. cbn [bind] in Ha. inv_bind Ha.
    injection Ha as <-. rename a1 into pg1.
    assert (Ne : row <> []). { intros ->. pose proof (record_nonempty _ _ Hf Ha0). cbn in Lr. lia. }
    assert (Fit : List.length row <= capacity (List.length pg) a rows0).
    { destruct (accepts_iff a pg rows0 row 0 H Ne ltac:(lia)) as [A _]. apply A. exists pg1. exact Ha1. }
    destruct (holds_step a pg rows0 (OpAppend row) H) as (pg2 & E2 & _ & H2); [split; auto|].
    cbn [apply_op] in E2. rewrite Ha1 in E2. injection E2 as <-. cbn [spec_op] in H2.
    destruct (IH Tvs pg1 (vs0 ++ [v]) (rows0 ++ [row]) pg' H2) as (rows & P & Q); [|exact E|].
    + apply Forall2_app; auto.
    + exists rows. rewrite <- app_assoc in Q. auto.
Qed.

(** What is held by a page fits on any fresh page of that size. *)
Lemma fits_again pg rows0 row more : holds a pg rows0 ->
  4 * (List.length rows0 + S more + 1) + stored a rows0 + align_up (List.length row) a <= List.length pg ->
  row_ok (List.length pg) a rows0 row.
Proof.
  intros H B. apply holds_rep in H. pose proof (rep_pos H) as Hp. split; [|right; unfold slot_fits; lia].
  unfold capacity. set (L := List.length pg) in *. pose proof (align_up_ge (List.length row) a Hp) as G.
  assert (C : align_up (4 * (List.length rows0 + 2)) a <= L - stored a rows0 - align_up (List.length row) a); [|lia].
  apply align_up_least; [exact Hp| |lia].
  apply divide_sub; [apply divide_sub|]; [apply (rep_div _ _ _ H)|apply stored_divide|apply align_up_div].
Qed.

Lemma puts_fit vs : forall rows, Forall2 (record_of pf t l) vs rows -> forall pg vs0 rows0, holds a pg rows0 ->
  Forall2 (record_of pf t l) vs0 rows0 ->
  4 * (List.length rows0 + List.length rows + 1) + stored a rows0 + stored a rows <= List.length pg ->
  exists pg' rows', puts vs pg = Ret (Ok pg') /\ holds a pg' rows' /\ Forall2 (record_of pf t l) (vs0 ++ vs) rows'.
Proof.
  induction 1 as [|v old vs rows Ro Rs IH]; intros pg vs0 rows0 H R B.
  - exists pg, rows0. rewrite app_nil_r. auto.
  - cbn [puts]. unfold put at 1. pose proof (record_size _ _ Ro) as Hn. rewrite Hn. cbn [bind].
    destruct (put_record v _ (record_typed _ _ Ro) Hn) as (row & Er & Rr & Lr). rewrite Er. cbn [bind].
    rewrite stored_cons in B. cbn [List.length] in B.
    destruct (holds_step a pg rows0 (OpAppend row) H) as (pg1 & E1 & L1 & H1).
    { apply (fits_again pg rows0 row (List.length rows) H). rewrite Lr. lia. }
    cbn [apply_op spec_op] in E1, H1. rewrite E1. cbn [bind].
    destruct (IH pg1 (vs0 ++ [v]) (rows0 ++ [row]) H1) as (pg' & rows' & P & Q & S').
    + apply Forall2_app; auto.
    + assert (E0 : stored a [row] = align_up (List.length old) a) by (rewrite stored_cons, Lr; change (stored a []) with 0; lia).
      rewrite stored_app, E0, app_length, L1. cbn [List.length] in *. lia.
    + exists pg', rows'. rewrite <- app_assoc in S'. auto.
Qed.

Lemma records_typed vs rows : Forall2 (record_of pf t l) vs rows -> Forall (typed t) vs.
Proof. induction 1; constructor; auto. eapply record_typed. eassumption. Qed.

Lemma fresh_holds pg pg0 : initialize_page a pg = Ret pg0 -> holds a pg0 [] /\ List.length pg0 = List.length pg.
Proof.
  intros H. split; [|apply initialize_inv in H; tauto]. exists pg, pg0, []. split; [exact H|]. split; [constructor|reflexivity].
Qed.

(** ** Statements *)

Lemma documents_decode texts vs :
  Forall2 (fun text v => exists r x r', document alnum fl t text v r /\ reads alnum r x r') texts vs <-> Forall2 decodes texts vs.
Proof.
  split; (induction 1; constructor; [|assumption]); apply (decode_exact alnum fl pf t _ [] _ H64); assumption.
Qed.

Lemma load_by_value texts texts' vs pg : Forall (typed t) vs ->
  Forall2 (fun text v => exists r x r', document alnum fl t text v r /\ reads alnum r x r') texts vs ->
  Forall2 (fun text v => exists r x r', document alnum fl t text v r /\ reads alnum r x r') texts' vs ->
  load alnum fl pf t l a texts' pg = load alnum fl pf t l a texts pg.
Proof. intros T D D'. apply documents_decode in D, D'. rewrite !(load_puts _ vs) by assumption. reflexivity. Qed.

Lemma reload_lemma texts vs pg pg0 page : l_fixed l <> [] -> Forall (typed t) vs -> Forall (json_value fl t) vs ->
  Forall2 (fun text v => exists r x r', document alnum fl t text v r /\ reads alnum r x r') texts vs ->
  initialize_page a pg = Ret pg0 -> load alnum fl pf t l a texts pg0 = Ret (Ok page) ->
  exists outs texts', dump fl pf t l a page = Ret outs /\ Forall2 (fun bs text => utf8_decode bs = Some text) outs texts' /\
    load alnum fl pf t l a texts' pg0 = Ret (Ok page).
Proof.
  intros Hf T J D I E. apply documents_decode in D. rewrite (load_puts _ vs) in E by assumption.
  destruct (fresh_holds _ _ I) as [H0 _].
  destruct (puts_holds vs Hf T pg0 [] [] page H0 ltac:(constructor) E) as (rows & H & R). cbn [app] in R.
  destruct (shown_texts vs T J) as (outs & texts' & A & B & C). exists outs, texts'.
  split; [eapply dump_shown; eassumption|]. split; [exact B|]. rewrite (load_puts _ vs) by assumption. exact E.
Qed.

Lemma copy_lemma page rows vs pg pg0 : holds a page rows -> Forall2 (record_of pf t l) vs rows -> Forall (json_value fl t) vs ->
  List.length pg = List.length page -> initialize_page a pg = Ret pg0 ->
  exists outs texts page', dump fl pf t l a page = Ret outs /\ Forall2 (fun bs text => utf8_decode bs = Some text) outs texts /\
    load alnum fl pf t l a texts pg0 = Ret (Ok page') /\ dump fl pf t l a page' = Ret outs.
Proof.
  intros H R J L I. pose proof (records_typed _ _ R) as T. destruct (shown_texts vs T J) as (outs & texts & A & B & C).
  destruct (fresh_holds _ _ I) as [H0 L0]. pose proof (rep_space _ _ _ (holds_rep _ _ _ H)) as Sp.
  destruct (puts_fit vs rows R pg0 [] [] H0 ltac:(constructor)) as (page' & rows' & E & H' & R').
  { cbn [List.length stored map list_sum fold_right]. change (stored a []) with 0. rewrite L0, L. lia. }
  exists outs, texts, page'. split; [eapply dump_shown; eassumption|]. split; [exact B|].
  split; [rewrite (load_puts _ vs) by assumption; exact E|]. eapply dump_shown; eassumption.
Qed.
End Pipeline.
