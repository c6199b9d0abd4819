(** * Accepted statements keep the data conforming to the columns *)

From Coq Require Import ZifyBool ZifyNat.
From Verif Require Import Base SqlNameModel SqlModel SqlNameProofs SqlTypeProofs SqlScope SqlEval SqlInd SqlStmtSpec
  SqlColumnsSpec SqlRules SqlRulesTop SqlSpec SqlRun SqlRunProofs SqlExec.
Local Open Scope nat_scope.
Local Open Scope list_scope.

Section Assign.
Context (up : Z -> list Z).
Notation same := (name_eqb up).

Lemma distinct_same attrs a b : distinct up (map a_name attrs) -> In a attrs -> In b attrs -> same (a_name a) (a_name b) = true -> a = b.
Proof.
  induction attrs as [|c attrs IH]; intros D Ha Hb E; [destruct Ha|]. cbn in D. inversion D as [|? ? D1 D2]; subst.
  rewrite Forall_forall in D1. destruct Ha as [<-|Ha], Hb as [<-|Hb]; auto.
  - rewrite D1 in E; [discriminate|]. apply in_map; exact Hb.
  - rewrite name_eqb_sym, D1 in E; [discriminate|]. apply in_map; exact Ha.
Qed.

Lemma distinct_last attrs a : distinct up (map a_name attrs) -> In a attrs -> last_named up attrs a.
Proof.
  intros D Ha. apply in_split in Ha as (l1 & l2 & ->). exists l1, l2. split; [reflexivity|].
  induction l1 as [|c l1 IH]; cbn in D; inversion D as [|? ? D1 D2]; subst; [|apply IH; exact D2].
  rewrite Forall_forall in *. intros b Hb. apply D1. apply in_map; exact Hb.
Qed.

Lemma last_in attrs a : last_named up attrs a -> In a attrs.
Proof. intros (l1 & l2 & -> & _). apply in_or_app. right. left. reflexivity. Qed.

(** Each pair is for a column that takes the value. *)
Definition suits (attrs : list attribute) (p : name * value) : Prop :=
  exists c d n, column_of up attrs (fst p) c /\ takes c d n /\ fits true (snd p) (TyScalar d n).

Lemma assigned_cell attrs pairs a v : distinct up (map a_name attrs) -> Forall (suits attrs) pairs -> In a attrs ->
  assigned up pairs (a_name a) = Some v -> cell v a.
Proof.
  intros D F Ha E. unfold assigned in E. destruct (find _ pairs) as [[n u]|] eqn:Ef; [|discriminate]. injection E as <-.
  apply find_some in Ef as [Hin Hn]. rewrite Forall_forall in F. destruct (F _ Hin) as (c & d & k & [Hc1 Hc2] & [T1 T2] & V1 & V2). cbn in *.
  assert (a = c) as <-.
  { apply (distinct_same attrs); auto; [apply last_in; exact Hc1|]. rewrite (name_eqb_congr_l up _ _ (a_name c) Hn). exact Hc2. }
  apply of_stype_scalar in V1. split; [congruence|]. intros N. apply (V2 eq_refl d). f_equal. destruct k; [|reflexivity].
  rewrite T2 in N by reflexivity. discriminate.
Qed.

Lemma assigned_none (pairs : list (name * value)) m : assigned up pairs m = None -> forall p, In p pairs -> same m (fst p) = false.
Proof.
  unfold assigned. destruct (find _ pairs) as [p0|] eqn:E; [discriminate|]. intros _ p Hp. apply (find_none _ _ E p Hp).
Qed.

Lemma changed_row_ok attrs pairs r : distinct up (map a_name attrs) -> Forall (suits attrs) pairs -> Forall2 cell r attrs ->
  Forall2 cell (changed_row up (map a_name attrs) pairs r) attrs.
Proof.
  intros D F R. unfold changed_row.
  assert (G : forall l, incl l attrs -> forall r, Forall2 cell r l ->
    Forall2 cell (map (fun c => match assigned up pairs (fst c) with Some v => v | None => snd c end) (combine (map a_name l) r)) l).
  { intros l. induction l as [|a l IH]; intros I r0 H; inversion H as [|v ? r' ? Hv Hr]; subst; cbn; [constructor|]. constructor.
    - destruct (assigned up pairs (a_name a)) as [u|] eqn:E; [|exact Hv]. eapply assigned_cell; eauto. apply I. left. reflexivity.
    - apply IH; [|exact Hr]. intros b Hb. apply I. right. exact Hb. }
  apply G; [apply incl_refl|exact R].
Qed.

Lemma new_row_ok attrs targets values r : distinct up (map a_name attrs) -> storable up attrs targets values -> ok_row true values r ->
  Forall2 cell (new_row up (map a_name attrs) targets r) attrs.
Proof.
  intros D (_ & F & Req) R.
  assert (P : Forall (suits attrs) (combine targets r)).
  { clear Req. revert r R. induction F as [|n v targets values (c & Hc & Ht) F IH]; intros r R; inversion R as [|? u ? r' Hu Hr]; subst; cbn; constructor.
    - exists c, (a_type v), (a_null v). split; [exact Hc|]. split; [exact Ht|]. apply (fits_cell true u v). exact Hu.
    - apply IH; exact Hr. }
  assert (L : length targets = length r) by (rewrite (Forall2_len _ _ _ F); apply (Forall2_len _ _ _ R)).
  unfold new_row.
  assert (G : forall l, incl l attrs ->
    Forall2 cell (map (fun n => match assigned up (combine targets r) n with Some v => v | None => VNull end) (map a_name l)) l).
  { intros l. induction l as [|a l IH]; intros I; cbn; constructor.
    - destruct (assigned up (combine targets r) (a_name a)) as [u|] eqn:E.
      + eapply assigned_cell; eauto. apply I. left. reflexivity.
      + split; [exact Logic.I|]. intros N. exfalso.
        destruct (Req a) as (n & Hn & Hs); [apply distinct_last; [exact D|apply I; left; reflexivity]|exact N|].
        assert (Hx : exists u, In (n, u) (combine targets r)).
        { clear -Hn L. revert r L. induction targets as [|m targets IH]; intros [|u r] L; try discriminate; [destruct Hn|].
          cbn in *. destruct Hn as [->|Hn]; [eauto|]. destruct (IH Hn r ltac:(lia)) as [v Hv]. eauto. }
        destruct Hx as [u Hu]. pose proof (assigned_none _ _ E _ Hu) as Hf. cbn in Hf. rewrite name_eqb_sym in Hf. congruence.
    - apply IH. intros b Hb. apply I. right. exact Hb. }
  apply G, incl_refl.
Qed.
End Assign.

Section Main.
Context (up : Z -> list Z) (w : world) (stored : store) (count : list Z -> nat)
  (same_row : row -> row -> bool) (arrange : list (expr * option name * direction) -> list row -> list nat)
  (tables : list name -> list attribute -> Prop)
  (Hdata : data_of tables stored) (Hnames : columns_differ up tables).
Notation run := (run up w count same_row arrange stored).

Lemma expr_fine e : GE up w count same_row arrange tables e.
Proof. apply (run_sound up w count same_row arrange tables Hnames). Qed.

Lemma all_seen : sees up tables [] stored.
Proof. intros q attrs [T _]. exact (Hdata q attrs T). Qed.

Lemma row_env q attrs r : Forall2 cell r attrs -> ok_env true [(last q [], attrs)] [(last q [], combine (map a_name attrs) r)].
Proof.
  intros H. constructor; [|constructor]. split; [reflexivity|]. apply combine_ok.
  induction H as [|v a r attrs [V N] H IH]; constructor; [split; auto|exact IH].
Qed.

Lemma one_names q attrs : tables q attrs ->
  distinct up (map fst [(last q (@nil Z), attrs)]) /\ Forall (fun r => distinct up (map a_name (snd r))) [(last q (@nil Z), attrs)].
Proof. intros T. split; [repeat constructor|]. constructor; [exact (Hnames _ _ T)|constructor]. Qed.

Lemma selected_fine q attrs wh r : tables q attrs -> Forall2 cell r attrs -> given (covered up [] false true) wh = true ->
  filter_typed up tables q attrs wh -> fine true (fun _ => True) (selected up w count same_row arrange stored q (map a_name attrs) wh r).
Proof.
  intros T R C F. unfold selected. destruct wh as [e|]; [|apply fine_done; exact I]. inversion F as [|? [n Te]]; subst.
  eapply condition_run; [exact all_seen|apply (one_names q attrs T)|eapply ok_env_weaken, row_env; exact R|apply expr_fine|exact C|exact Te].
Qed.

Lemma change_fine s : covered_statement up s = true -> statement_typed up tables s ->
  exists q attrs, target s = Some q /\ tables q attrs /\
    fine true (Forall (fun r => Forall2 cell r attrs)) (change up w count same_row arrange stored s).
Proof.
  intros C T. inversion T as [s0 attrs Hs|i attrs values Tb Ts St|u attrs Tb As Fw|d attrs Tb Fw]; subst; cbn in C; try discriminate.
  - destruct (i_columns i) as [cols|] eqn:Ec; [|discriminate]. eexists _, attrs. split; [reflexivity|]. split; [exact Tb|].
    unfold change. cbn [target]. destruct (Hdata _ _ Tb) as (rows & -> & R). rewrite Ec.
    pose proof (run_sound up w count same_row arrange tables Hnames) as (_ & _ & _ & _ & G & _).
    eapply fine_next; [eapply G; [exact all_seen|eassumption|eassumption]|]. intros t [Wt Rt]. cbv zeta.
    pose proof (Forall2_len _ _ _ (proj1 (proj2 St))) as L. rewrite Wt, <- L, Nat.eqb_refl. apply fine_done. apply Forall_app. split; [exact R|].
    rewrite Forall_forall in *. intros x Hx. apply in_map_iff in Hx as (r & <- & Hr). eapply new_row_ok; [exact (Hnames _ _ Tb)|exact St|auto].
  - apply andb_true_iff in C as [C1 C2]. eexists _, attrs. split; [reflexivity|]. split; [exact Tb|].
    unfold change. cbn [target]. destruct (Hdata _ _ Tb) as (rows & -> & R).
    apply (fine_weaken true (Forall2 (fun _ r => Forall2 cell r attrs) rows)); [|apply fine_each].
    + intros l Hl. clear -Hl. induction Hl; [apply Forall_nil|apply Forall_cons; auto].
    + revert R. apply Forall_impl. intros r Hr. eapply fine_next; [eapply selected_fine; eassumption|]. intros b _.
      destruct b; [|apply fine_done; exact Hr]. destruct As as [_ As].
      eapply fine_next.
      { apply (fine_each true (fun _ ps => Forall (suits up attrs) ps)). rewrite Forall_forall in As |- *. rewrite forallb_forall in C1.
        intros a Ha. destruct (As a Ha) as (d & n & Te & Tk).
        eapply fine_next.
        - eapply expr_fine; [exact all_seen|apply (one_names _ _ Tb)|apply row_env; exact Hr|apply C1; exact Ha|exact Te].
        - intros v Hv. cbn in Hv. apply fine_done. rewrite Forall_forall in *. intros p Hp. apply in_map_iff in Hp as (m & <- & Hm).
          destruct (Tk m Hm) as (c & Hc & Htk). exists c, d, n. auto. }
      intros pss Hps. apply fine_done. apply changed_row_ok; [exact (Hnames _ _ Tb)| |exact Hr].
      cbn beta in Hps. clear -Hps. induction Hps; cbn; [constructor|]. apply Forall_app. auto.
  - eexists _, attrs. split; [reflexivity|]. split; [exact Tb|].
    unfold change. cbn [target]. destruct (Hdata _ _ Tb) as (rows & -> & R).
    eapply fine_weaken; [|apply fine_keep].
    + intros k Hk. exact (incl_Forall _ _ _ Hk R).
    + revert R. apply Forall_impl. intros r Hr. eapply fine_next; [eapply selected_fine; eassumption|]. intros b _. apply fine_done. exact I.
Qed.
End Main.

Section Top.
Context (up : Z -> list Z) (db : database) (dflt : name) (w : world) (stored : store)
  (count : list Z -> nat) (same_row : row -> row -> bool) (arrange : list (expr * option name * direction) -> list row -> list nat).
Context (W : well_named up db) (D : columns_differ up (catalog up db dflt)) (S : data_of (catalog up db dflt) stored).

Lemma statement_lemma s : covered_statement up s = true -> validate_statement up (set_context_new up db dflt) s = ok tt ->
  exists q attrs, target s = Some q /\ catalog up db dflt q attrs /\
    (change up w count same_row arrange stored s = Failed \/ change up w count same_row arrange stored s = Unchecked \/
     exists rows, change up w count same_row arrange stored s = Done rows /\ Forall (fun r => Forall2 cell r attrs) rows).
Proof.
  intros C V.
  assert (T : sql_typed up (catalog up db dflt) (SqlStatement s)) by (apply sql_sound; [exact W|exact V]).
  inversion T as [? T'| | |]; subst.
  destruct (change_fine up w stored count same_row arrange _ S D s C T') as (q & attrs & Hq & Ht & [(rows & E & H)|[E|[E _]]]);
    exists q, attrs; eauto 10.
Qed.
End Top.

Section History.
Context (up : Z -> list Z) (db : database) (dflt : name) (w : world) (count : list Z -> nat) (same_row : row -> row -> bool)
  (arrange : list (expr * option name * direction) -> list row -> list nat).
Context (W : well_named up db) (D : columns_differ up (catalog up db dflt)).
Notation same := (name_eqb up).
Notation tables := (catalog up db dflt).

Lemma same_trans a b c : same a b = true -> same b c = true -> same a c = true.
Proof. intros H1 H2. rewrite (name_eqb_congr_l up _ _ c H1). exact H2. Qed.

Lemma in_schema_same s n s' n' attrs : same s s' = true -> same n n' = true -> in_schema up db s n attrs -> in_schema up db s' n' attrs.
Proof.
  intros Hs Hn (s0 & sc & n0 & o & H1 & H2 & H3 & H4 & E). exists s0, sc, n0, o. repeat split; auto.
  - rewrite name_eqb_sym in Hs. eapply same_trans; eassumption.
  - rewrite name_eqb_sym in Hn. eapply same_trans; eassumption.
Qed.

Lemma in_schema_fun s n attrs attrs' : in_schema up db s n attrs -> in_schema up db s n attrs' -> attrs = attrs'.
Proof.
  intros H H'.
  apply (tables_ok up db dflt W [s; n] attrs) in H as (r & E & <-). apply (tables_ok up db dflt W [s; n] attrs') in H' as (r' & E' & <-).
  rewrite E in E'. apply ok_inj in E' as ->. reflexivity.
Qed.

Lemma place_schema q s n attrs : place dflt q = Some (s, n) -> tables q attrs -> in_schema up db s n attrs.
Proof. destruct q as [|a [|b [|c q]]]; try discriminate; intros [= <- <-] H; exact H. Qed.

Lemma same_table_columns q q' attrs attrs' : same_table up dflt q q' = true -> tables q attrs -> tables q' attrs' -> attrs = attrs'.
Proof.
  unfold same_table. destruct (place dflt q) as [[s n]|] eqn:E; [|discriminate]. destruct (place dflt q') as [[s' n']|] eqn:E'; [|discriminate].
  intros H T T'. apply andb_true_iff in H as [Hs Hn].
  apply (in_schema_fun s' n').
  - eapply in_schema_same; [exact Hs|exact Hn|]. eapply place_schema; eassumption.
  - eapply place_schema; eassumption.
Qed.

Lemma after_data stored s : covered_statement up s = true -> validate_statement up (set_context_new up db dflt) s = ok tt ->
  data_of tables stored -> data_of tables (after up dflt w count same_row arrange stored s).
Proof.
  intros C V S. destruct (statement_lemma up db dflt w stored count same_row arrange W D S s C V) as (q & attrs & Eq & Tq & H).
  unfold after. rewrite Eq. destruct H as [->|[->|(rows & -> & R)]]; [exact S|exact S|].
  intros q' attrs' T'. destruct (same_table up dflt q q') eqn:E; [|exact (S q' attrs' T')].
  rewrite <- (same_table_columns _ _ _ _ E Tq T'). destruct (S q attrs Tq) as (rows0 & -> & _). exists rows. auto.
Qed.

Lemma history_data l stored : Forall (fun s => covered_statement up s = true /\ validate_statement up (set_context_new up db dflt) s = ok tt) l ->
  data_of tables stored -> data_of tables (history up dflt w count same_row arrange stored l).
Proof.
  intros H. revert stored. induction H as [|s l [C V] H IH]; intros stored S; [exact S|]. cbn. apply IH. apply after_data; assumption.
Qed.

Lemma history_lemma stored l : Forall (fun s => covered_statement up s = true /\ validate_statement up (set_context_new up db dflt) s = ok tt) l ->
  data_of tables stored ->
  data_of tables (history up dflt w count same_row arrange stored l) /\
  forall l1 s l2, l = l1 ++ s :: l2 ->
    let r := change up w count same_row arrange (history up dflt w count same_row arrange stored l1) s in r <> IllTyped /\ r <> Excluded.
Proof.
  intros H S. split; [apply history_data; assumption|]. intros l1 s l2 ->. apply Forall_app in H as [H1 H2].
  inversion H2 as [|? ? [C V] _]; subst. cbv zeta.
  destruct (statement_lemma up db dflt w _ count same_row arrange W D (history_data _ _ H1 S) s C V) as (q & attrs & _ & _ & [->|[->|(rows & -> & _)]]);
    split; discriminate.
Qed.
End History.
