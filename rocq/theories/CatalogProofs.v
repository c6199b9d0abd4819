(** * The catalog read back *)

From Coq Require Import Strings.String Sorting.Permutation.
From Verif Require Import Base StrModel SqlNameModel SqlNameProofs SqlModel StorageModel CatalogModel CatalogSpec.
Local Open Scope list_scope.
Local Open Scope string_scope.
Local Open Scope list_scope.
Local Open Scope nat_scope.

(** ** Lists *)

Lemma all_cons {A B} (f : A -> option B) a l :
  all f (a :: l) = match f a, all f l with Some b, Some r => Some (b :: r) | _, _ => None end.
Proof. reflexivity. Qed.

Lemma all_forall2 {A B} (f : A -> option B) l r : all f l = Some r <-> Forall2 (fun a b => f a = Some b) l r.
Proof.
  revert r. induction l as [|a l IH]; intros r.
  - split; [intros [= <-]; constructor|]. intros H. inversion H. reflexivity.
  - rewrite all_cons. split.
    + destruct (f a) as [b|] eqn:E; [|discriminate]. destruct (all f l) as [bs|]; [|discriminate]. intros [= <-].
      constructor; [exact E|]. apply IH. reflexivity.
    + intros H. inversion H as [|? b ? bs Hb Hbs]; subst. apply IH in Hbs. rewrite Hb, Hbs. reflexivity.
Qed.

Lemma all_back {A B} (w : A -> option B) (r : B -> option A) l t :
  (forall x y, In x l -> w x = Some y -> r y = Some x) -> all w l = Some t -> all r t = Some l.
Proof.
  intros H E. apply all_forall2 in E. apply all_forall2. induction E as [|x y l t Hx Hl IH]; constructor.
  - apply H; [left; reflexivity|exact Hx].
  - apply IH. intros a b Ha. apply H. right. exact Ha.
Qed.

Lemma all_none {A B} (f : A -> option B) l : all f l = None <-> Exists (fun a => f a = None) l.
Proof.
  induction l as [|a l IH].
  - split; [discriminate|]. intros H. inversion H.
  - rewrite all_cons, Exists_cons, <- IH. destruct (f a); [|split; auto].
    destruct (all f l); split; try discriminate; auto. intros [H|H]; discriminate.
Qed.

Lemma all_some {A B} (f : A -> option B) l : (forall a, f a <> None) -> all f l <> None.
Proof. intros H E. apply all_none, Exists_exists in E as (a & _ & Ha). exact (H a Ha). Qed.

(** ** Structs *)

Lemma position_at pre s rest : ~ In s pre -> position_of (pre ++ s :: rest) s = Some (List.length pre).
Proof.
  induction pre as [|a pre IH]; cbn; intros H.
  - rewrite (proj2 (str_eqb_spec s s) eq_refl). reflexivity.
  - destruct (str_eqb a s) eqn:E; [apply str_eqb_spec in E; subst; exfalso; apply H; left; reflexivity|].
    rewrite IH; [reflexivity|]. intros Hin. apply H. right. exact Hin.
Qed.

Lemma put_at l v r : put_slot (map Some l ++ None :: r) (List.length l) v = Some (map Some (l ++ [v]) ++ r).
Proof. induction l as [|a l IH]; cbn; [reflexivity|]. rewrite IH. reflexivity. Qed.

Lemma members_back names pre rest ts tpre : names = pre ++ rest -> NoDup names -> List.length tpre = List.length pre ->
  List.length ts = List.length rest ->
  fold_left (take_member names) (combine (map InStr rest) ts) (Some (map Some tpre ++ repeat None (List.length rest))) =
  Some (map Some (tpre ++ ts)).
Proof.
  intros -> Hn. revert pre ts tpre Hn. induction rest as [|s rest IH]; intros pre ts tpre Hn Hl Ht.
  - destruct ts; [|discriminate]. cbn. rewrite !app_nil_r. reflexivity.
  - destruct ts as [|t ts]; [discriminate|]. cbn [map combine fold_left repeat List.length].
    assert (Hs : ~ In s pre). { apply NoDup_remove_2 in Hn. intros H. apply Hn, in_or_app. left. exact H. }
    assert (E : take_member (pre ++ s :: rest) (Some (map Some tpre ++ None :: repeat None (List.length rest))) (InStr s, t) =
      Some (map Some (tpre ++ [t]) ++ repeat None (List.length rest))).
    { unfold take_member. cbn [chain fst snd field_index]. rewrite position_at by exact Hs. cbn [chain]. rewrite <- Hl. apply put_at. }
    rewrite E. clear E. specialize (IH (pre ++ [s]) ts (tpre ++ [t])). rewrite <- !app_assoc in IH. cbn [app] in IH. apply IH.
    + exact Hn.
    + rewrite !app_length, Hl. reflexivity.
    + injection Ht as Ht. exact Ht.
Qed.

Lemma all_id {A} (l : list A) : all (fun s => s) (map Some l) = Some l.
Proof. apply all_forall2. induction l; constructor; auto. Qed.

Lemma struct_back fmt names ds t : NoDup names -> List.length ds = List.length names ->
  write fmt (DtStruct (combine names ds)) = Some t ->
  exists ts, Forall2 (fun d u => write fmt d = Some u) ds ts /\ struct_fields names t = Some ts.
Proof.
  intros Hn Hl. cbn [write]. destruct (by_name fmt).
  - destruct (all _ (combine names ds)) as [l|] eqn:E; [|discriminate]. intros [= <-]. apply all_forall2 in E.
    assert (G : exists ts, l = combine (map InStr names) ts /\ Forall2 (fun d u => write fmt d = Some u) ds ts).
    { clear Hn. revert ds Hl l E. induction names as [|n names IH]; intros [|d ds] Hl l E; try discriminate.
      - inversion E; subst. exists []. split; [reflexivity|constructor].
      - cbn [combine] in E. inversion E as [|? y ? l' Hy Hl']; subst. cbn [fst snd both] in Hy.
        destruct (write fmt d) as [u|] eqn:Eu; [|discriminate]. injection Hy as <-.
        destruct (IH ds (f_equal pred Hl) l' Hl') as (ts & -> & H). exists (u :: ts). split; [reflexivity|]. constructor; assumption. }
    destruct G as (ts & -> & H). exists ts. split; [exact H|].
    assert (Lt : List.length ts = List.length names). { rewrite <- Hl. symmetry. clear -H. induction H; cbn; congruence. }
    cbn [struct_fields]. pose proof (members_back names [] names ts [] eq_refl Hn eq_refl Lt) as K. cbn [map app] in K. rewrite K.
    apply all_id.
  - destruct (all _ (combine names ds)) as [ts|] eqn:E; [|discriminate]. intros [= <-]. apply all_forall2 in E. exists ts.
    assert (H : Forall2 (fun d u => write fmt d = Some u) ds ts).
    { clear Hn. revert ds Hl ts E. induction names as [|n names IH]; intros [|d ds] Hl ts E; try discriminate; inversion E; subst; constructor.
      - assumption.
      - apply IH; [injection Hl as Hl; exact Hl|assumption]. }
    split; [exact H|]. assert (Lt : List.length ts = List.length names). { rewrite <- Hl. symmetry. clear -H. induction H; cbn; congruence. }
    cbn [struct_fields]. rewrite Lt, Nat.ltb_irrefl, <- Lt, firstn_all. reflexivity.
Qed.

Lemma struct_none fmt names ds : List.length ds = List.length names ->
  (write fmt (DtStruct (combine names ds)) = None <-> Exists (fun d => write fmt d = None) ds).
Proof.
  intros Hl.
  assert (G : forall (f : str * data -> option (input * input)), (forall n d, f (n, d) = None <-> write fmt d = None) ->
    (all f (combine names ds) = None <-> Exists (fun d => write fmt d = None) ds)).
  { intros f Hf. rewrite all_none. revert ds Hl. induction names as [|n names IH]; intros [|d ds] Hl; try discriminate; cbn [combine].
    - split; intros H; inversion H.
    - rewrite !Exists_cons, Hf, IH by (injection Hl as Hl; exact Hl). reflexivity. }
  assert (G' : forall (f : str * data -> option input), (forall n d, f (n, d) = None <-> write fmt d = None) ->
    (all f (combine names ds) = None <-> Exists (fun d => write fmt d = None) ds)).
  { intros f Hf. rewrite all_none. clear G. revert ds Hl. induction names as [|n names IH]; intros [|d ds] Hl; try discriminate; cbn [combine].
    - split; intros H; inversion H.
    - rewrite !Exists_cons, Hf, IH by (injection Hl as Hl; exact Hl). reflexivity. }
  cbn [write]. destruct (by_name fmt).
  - rewrite <- (G (fun f => both (Some (InStr (fst f))) (write fmt (snd f)))).
    + destruct (all _ _); cbn; split; congruence.
    + intros n d. cbn [fst snd both]. destruct (write fmt d); split; congruence.
  - rewrite <- (G' (fun f => write fmt (snd f))); [|reflexivity]. destruct (all _ _); cbn; split; congruence.
Qed.

Ltac distinct := repeat constructor; cbn; intuition discriminate.
Ltac fields H := repeat match goal with
  | K : Forall2 _ (_ :: _) _ |- _ => inversion K; subst; clear K
  | K : Forall2 _ [] _ |- _ => inversion K; subst; clear K
  end.

(** ** The parts of the catalog *)

Section Format.
Variable fmt : format.

Lemma name_back n t : write fmt (name_data n) = Some t -> read_name t = Some n.
Proof.
  intros H. apply struct_back in H as (ts & Hts & E); [|distinct|reflexivity]. fields Hts. unfold read_name. rewrite E. cbn [chain].
  match goal with K : write _ _ = Some _ |- _ => injection K as <- end. reflexivity.
Qed.

Lemma type_back ty t : write fmt (type_data ty) = Some t -> read_type t = Some ty.
Proof. cbn [type_data write]. intros [= <-]. unfold identifier. destruct (by_name fmt), ty; vm_compute; reflexivity. Qed.

Lemma column_back c t : write fmt (column_data c) = Some t -> read_column t = Some c.
Proof.
  intros H. apply struct_back in H as (ts & Hts & E); [|distinct|reflexivity]. fields Hts. unfold read_column. rewrite E. cbn [chain].
  repeat match goal with K : write _ (DtBool _) = Some _ |- _ => injection K as <- end.
  match goal with K : write _ (name_data _) = Some _ |- _ => rewrite (name_back _ _ K) end.
  match goal with K : write _ (type_data _) = Some _ |- _ => rewrite (type_back _ _ K) end.
  destruct c. reflexivity.
Qed.

Lemma seq_back {A} (w : A -> data) (r : input -> option A) l t :
  (forall x u, write fmt (w x) = Some u -> r u = Some x) -> write fmt (DtSeq (map w l)) = Some t -> read_seq r t = Some l.
Proof.
  intros H. cbn [write]. destruct (all (write fmt) (map w l)) as [ts|] eqn:E; [|discriminate]. intros [= <-]. cbn [read_seq].
  apply all_forall2 in E. apply all_forall2. revert ts E. induction l as [|x l IH]; intros ts E; inversion E; subst; constructor; auto.
Qed.

Lemma rows_back r t : write fmt (rows_data r) = Some t -> read_rows t = Some r.
Proof.
  intros H. apply struct_back in H as (ts & Hts & E); [|distinct|reflexivity]. fields Hts. unfold read_rows. rewrite E. cbn [chain].
  eapply seq_back; [apply column_back|eassumption].
Qed.

Lemma table_back b t : write fmt (table_data b) = Some t -> read_table t = Some b.
Proof.
  intros H. apply struct_back in H as (ts & Hts & E); [|distinct|reflexivity]. fields Hts. unfold read_table. rewrite E. cbn [chain].
  match goal with K : write _ (name_data _) = Some _ |- _ => rewrite (name_back _ _ K) end.
  match goal with K : write _ (rows_data _) = Some _ |- _ => rewrite (rows_back _ _ K) end. cbn [chain].
  erewrite seq_back; [|apply name_back|eassumption]. destruct b. reflexivity.
Qed.

Lemma view_back b t : write fmt (view_data b) = Some t -> read_view t = Some b.
Proof.
  intros H. apply struct_back in H as (ts & Hts & E); [|distinct|reflexivity]. fields Hts. unfold read_view. rewrite E. cbn [chain].
  match goal with K : write _ (name_data _) = Some _ |- _ => rewrite (name_back _ _ K) end.
  match goal with K : write _ (rows_data _) = Some _ |- _ => rewrite (rows_back _ _ K) end. cbn [chain].
  match goal with K : write _ (DtStr _) = Some _ |- _ => injection K as <- end. destruct b. reflexivity.
Qed.

Lemma object_back o t : write fmt (object_data o) = Some t -> read_object t = Some o.
Proof.
  destruct o as [b|b]; cbn [object_data write].
  - destruct (write fmt (table_data b)) as [u|] eqn:E; [|discriminate]. intros [= <-]. apply table_back in E. unfold read_object, identifier.
    destruct (by_name fmt).
    + replace (variant_index object_variants (InStr (lit "Table"))) with (Some 0) by (vm_compute; reflexivity). cbn [chain]. rewrite E. reflexivity.
    + replace (variant_index object_variants (InNum (Z.of_nat 0))) with (Some 0) by (vm_compute; reflexivity). cbn [chain]. rewrite E. reflexivity.
  - destruct (write fmt (view_data b)) as [u|] eqn:E; [|discriminate]. intros [= <-]. apply view_back in E. unfold read_object, identifier.
    destruct (by_name fmt).
    + replace (variant_index object_variants (InStr (lit "View"))) with (Some 1) by (vm_compute; reflexivity). cbn [chain]. rewrite E. reflexivity.
    + replace (variant_index object_variants (InNum (Z.of_nat 1))) with (Some 1) by (vm_compute; reflexivity). cbn [chain]. rewrite E. reflexivity.
Qed.

Section Up.
Variable up : Z -> list Z.

Lemma put_last {V} (m : nmap V) k v : Forall (fun e => name_cmp up (fst e) k = Lt) m -> nput up m k v = m ++ [(k, v)].
Proof.
  induction 1 as [|[k' v'] m H Hm IH]; [reflexivity|]. cbn [nput app fst] in *.
  rewrite name_cmp_antisym, H. cbn [CompOpp]. rewrite IH. reflexivity.
Qed.

Lemma collect_ordered {V} (m : nmap V) : sorted up m -> ncollect up m = m.
Proof.
  unfold ncollect. assert (G : forall m pre, sorted up m -> Forall (fun e => below up (fst e) m) pre ->
    fold_left (fun (m : nmap V) e => nput up m (fst e) (snd e)) m pre = pre ++ m).
  { clear m. induction m as [|[k v] m IH]; intros pre Hs Hp; [symmetry; apply app_nil_r|]. cbn [fold_left fst snd].
    inversion Hs; subst. rewrite put_last.
    - rewrite IH; [rewrite <- app_assoc; reflexivity|assumption|]. apply Forall_app. split; [|repeat constructor; assumption].
      eapply Forall_impl; [|exact Hp]. intros e He. inversion He; assumption.
    - eapply Forall_impl; [|exact Hp]. intros e He. inversion He; assumption. }
  intros Hs. exact (G m [] Hs (Forall_nil _)).
Qed.

Lemma map_back {V} (w : V -> data) (r : input -> option V) m t : sorted up m ->
  (forall k v u, In (k, v) m -> write fmt (w v) = Some u -> r u = Some v) ->
  write fmt (map_data w m) = Some t -> read_map up r t = Some m.
Proof.
  intros Hs H. unfold map_data. cbn [write].
  destruct (all _ _) as [l|] eqn:E; [|discriminate]. intros [= <-]. cbn [read_map].
  assert (K : all (fun e => both (read_name (fst e)) (r (snd e))) l = Some m).
  { apply all_forall2 in E. apply all_forall2. clear Hs. revert l E. induction m as [|[k v] m IH]; intros l E; inversion E as [|? y ? l' Hy Hl]; subst; constructor.
    - cbn [fst snd] in Hy. destruct (write fmt (name_data k)) as [a|] eqn:Ea; [|discriminate].
      apply name_back in Ea. destruct (key_allowed fmt a) as [a'|] eqn:Ek; [|discriminate].
      assert (a' = a) as ->. { unfold key_allowed in Ek. destruct (string_keys fmt), a; congruence. }
      destruct (write fmt (w v)) as [b|] eqn:Eb; [|discriminate]. cbn [both] in Hy. injection Hy as <-. cbn [fst snd].
      rewrite Ea, (H k v b); [reflexivity|left; reflexivity|exact Eb].
    - apply IH; [|exact Hl]. intros k0 v0 u Hin. apply (H k0). right. exact Hin. }
  rewrite K. cbn. rewrite collect_ordered by exact Hs. reflexivity.
Qed.

Lemma schema_back s t : sorted up (k_objects s) -> write fmt (schema_data s) = Some t -> read_schema up t = Some s.
Proof.
  intros Hs H. apply struct_back in H as (ts & Hts & E); [|distinct|reflexivity]. fields Hts. unfold read_schema. rewrite E. cbn [chain].
  match goal with K : write _ (name_data _) = Some _ |- _ => rewrite (name_back _ _ K) end. cbn [chain].
  erewrite map_back; [|exact Hs|intros; eapply object_back; eassumption|eassumption]. destruct s. reflexivity.
Qed.

Lemma catalog_back c t : ordered up c -> write fmt (catalog_data c) = Some t -> read_catalog up t = Some c.
Proof.
  intros [Hs Hc] H. apply struct_back in H as (ts & Hts & E); [|distinct|reflexivity]. fields Hts. unfold read_catalog. rewrite E. cbn [chain].
  eapply map_back; [exact Hs| |eassumption]. intros k v u Hin Hu. rewrite Forall_forall in Hc. apply schema_back; [exact (Hc _ Hin)|exact Hu].
Qed.
End Up.

(** ** What can be written *)

Lemma name_some n : write fmt (name_data n) <> None.
Proof. unfold name_data. rewrite struct_none by reflexivity. intros H. inversion H as [? ? K|? ? K]; [discriminate|inversion K]. Qed.

Ltac no_part := match goal with
  | H : Exists _ [] |- _ => inversion H
  | H : Exists _ (_ :: _) |- _ => apply Exists_cons in H as [H|H]
  end.

Lemma column_some c : write fmt (column_data c) <> None.
Proof. unfold column_data. rewrite struct_none by reflexivity. intros H. repeat no_part; try discriminate. exact (name_some _ H). Qed.

Lemma seq_some {A} (w : A -> data) l : (forall a, write fmt (w a) <> None) -> write fmt (DtSeq (map w l)) <> None.
Proof.
  intros H. cbn [write]. destruct (all (write fmt) (map w l)) eqn:E; [discriminate|]. apply all_none, Exists_exists in E as (d & Hd & Hn).
  apply in_map_iff in Hd as (a & <- & _). exfalso. exact (H a Hn).
Qed.

Lemma rows_some r : write fmt (rows_data r) <> None.
Proof. unfold rows_data. rewrite struct_none by reflexivity. intros H. repeat no_part. exact (seq_some column_data _ column_some H). Qed.

Lemma object_some o : write fmt (object_data o) <> None.
Proof.
  assert (T : forall b, write fmt (table_data b) <> None).
  { intros b. unfold table_data. rewrite struct_none by reflexivity. intros H. repeat no_part.
    - exact (name_some _ H).
    - exact (rows_some _ H).
    - exact (seq_some name_data _ name_some H). }
  assert (W : forall b, write fmt (view_data b) <> None).
  { intros b. unfold view_data. rewrite struct_none by reflexivity. intros H. repeat no_part; try discriminate.
    - exact (name_some _ H).
    - exact (rows_some _ H). }
  destruct o as [b|b]; cbn [object_data write]; [specialize (T b); destruct (write fmt (table_data b))|specialize (W b); destruct (write fmt (view_data b))];
    cbn; congruence.
Qed.

(** A name is written as no string. *)
Lemma name_key n t : write fmt (name_data n) = Some t -> key_allowed fmt t = if string_keys fmt then None else Some t.
Proof.
  unfold name_data, name_fields. cbn [combine write]. destruct (by_name fmt); cbn; intros [= <-]; unfold key_allowed; destruct (string_keys fmt); reflexivity.
Qed.

Lemma map_none {V} (w : V -> data) (m : nmap V) :
  write fmt (map_data w m) = None <-> Exists (fun e => string_keys fmt = true \/ write fmt (w (snd e)) = None) m.
Proof.
  unfold map_data. cbn [write].
  assert (G : forall o : option (list (input * input)), option_map InMap o = None <-> o = None) by (intros []; cbn; split; congruence).
  rewrite G, all_none. induction m as [|[k v] m IH]; cbn [map].
  - split; intros H; inversion H.
  - rewrite !Exists_cons, IH. cbn [fst snd]. pose proof (name_some k) as N. destruct (write fmt (name_data k)) as [a|] eqn:Ea; [|congruence].
    rewrite (name_key _ _ Ea). destruct (string_keys fmt), (write fmt (w v)); cbn; intuition congruence.
Qed.

Lemma catalog_none c : write fmt (catalog_data c) = None <-> string_keys fmt = true /\ c <> [].
Proof.
  unfold catalog_data. rewrite struct_none by reflexivity. rewrite Exists_cons, map_none. split.
  - intros [H|H]; [|inversion H]. apply Exists_exists in H as ([k s] & Hin & [H|H]).
    + split; [exact H|]. intros ->. inversion Hin.
    + cbn [snd] in H. unfold schema_data in H. rewrite struct_none in H by reflexivity. repeat no_part.
      * exfalso. exact (name_some _ H).
      * apply map_none, Exists_exists in H as (e & _ & [H|H]); [|exfalso; exact (object_some _ H)].
        split; [exact H|]. intros ->. inversion Hin.
  - intros [H Hc]. left. destruct c; [congruence|]. apply Exists_cons. left. left. exact H.
Qed.
End Format.

(** ** What is read *)

Section Read.
Variable up : Z -> list Z.

Lemma read_map_entries {V} (r : input -> option V) t m : read_map up r t = Some m ->
  exists entries l, t = InMap entries /\ reads_entries r entries l /\ m = ncollect up l.
Proof.
  destruct t; try discriminate. cbn [read_map]. destruct (all _ l) as [ps|] eqn:E; [|discriminate]. intros [= <-].
  exists l, ps. split; [reflexivity|]. split; [|reflexivity]. apply all_forall2 in E. unfold reads_entries.
  induction E as [|e p l ps H Hl IH]; constructor; [|exact IH].
  destruct (read_name (fst e)), (r (snd e)); cbn in H; try discriminate. injection H as <-. split; reflexivity.
Qed.

Lemma read_map_sorted {V} (r : input -> option V) t m : read_map up r t = Some m -> sorted up m.
Proof. intros H. apply read_map_entries in H as (en & l & _ & _ & ->). apply ncollect_sorted. Qed.

Lemma read_schema_sorted t s : read_schema up t = Some s -> sorted up (k_objects s).
Proof.
  unfold read_schema. destruct (struct_fields schema_fields t) as [[|n [|o [|]]]|]; try discriminate. cbn [chain].
  destruct (read_name n); [|discriminate]. cbn [chain]. destruct (read_map up read_object o) eqn:E; [|discriminate]. intros [= <-].
  exact (read_map_sorted _ _ _ E).
Qed.

Lemma collect_values {V} (P : V -> Prop) (l : list (name * V)) : Forall (fun e => P (snd e)) l -> Forall (fun e => P (snd e)) (ncollect up l).
Proof.
  unfold ncollect. assert (G : forall l m, Forall (fun e => P (snd e)) l -> Forall (fun e => P (snd e)) m ->
    Forall (fun e => P (snd e)) (fold_left (fun (m : nmap V) e => nput up m (fst e) (snd e)) l m)).
  { clear l. induction l as [|[k v] l IH]; intros m Hl Hm; [exact Hm|]. inversion Hl; subst. cbn [fold_left]. apply IH; [assumption|].
    clear IH Hl. cbn [fst snd] in *. induction Hm as [|[k' v'] m H Hm IHm]; cbn [nput]; [repeat constructor; assumption|].
    destruct (name_cmp up k k'); repeat constructor; auto. }
  intros H. apply G; [exact H|constructor].
Qed.

Lemma read_catalog_ordered t c : read_catalog up t = Some c -> ordered up c.
Proof.
  unfold read_catalog. destruct (struct_fields catalog_fields t) as [[|m [|]]|]; try discriminate. cbn [chain]. intros H. split.
  - exact (read_map_sorted _ _ _ H).
  - apply read_map_entries in H as (en & l & _ & H & ->). apply (collect_values (fun s => sorted up (k_objects s))).
    induction H as [|e p en l [_ H] Hl IH]; constructor; [|exact IH]. exact (read_schema_sorted _ _ H).
Qed.

Lemma read_catalog_lookup entries c : read_catalog up (InMap [(InStr (lit "schemata"), InMap entries)]) = Some c ->
  exists l, reads_entries (read_schema up) entries l /\ forall n, nget up c n = last_entry up l n.
Proof.
  unfold read_catalog. replace (struct_fields catalog_fields (InMap [(InStr (lit "schemata"), InMap entries)])) with (Some [InMap entries])
    by (vm_compute; reflexivity). cbn [chain]. intros H. apply read_map_entries in H as (en & l & [= <-] & H & ->). exists l. split; [exact H|].
  intros n. apply nget_ncollect.
Qed.
End Read.

(** ** The order of members *)

Lemma put_put s i j a b : i <> j ->
  chain (put_slot s i a) (fun s => put_slot s j b) = chain (put_slot s j b) (fun s => put_slot s i a).
Proof.
  revert i j. induction s as [|o s IH]; intros [|i] [|j] H; try congruence; try reflexivity.
  - destruct o; cbn; [destruct (put_slot s j b); reflexivity|]. destruct (put_slot s j b); reflexivity.
  - destruct o; cbn; [destruct (put_slot s i a); reflexivity|]. destruct (put_slot s i a); reflexivity.
  - cbn. specialize (IH i j (fun e => H (f_equal S e))).
    destruct (put_slot s i a) as [x|] eqn:E1, (put_slot s j b) as [y|] eqn:E2, o; cbn in *; solve [reflexivity|rewrite IH; reflexivity|rewrite <- IH; reflexivity].
Qed.

Lemma put_again s i a b : chain (put_slot s i a) (fun s => put_slot s i b) = None.
Proof.
  revert i. induction s as [|o s IH]; intros [|i]; try reflexivity.
  - destruct o; reflexivity.
  - specialize (IH i). cbn. destruct o; destruct (put_slot s i a); cbn in *; try rewrite IH; reflexivity.
Qed.

Lemma take_swap names s e e' : take_member names (take_member names s e) e' = take_member names (take_member names s e') e.
Proof.
  destruct s as [s|]; [|reflexivity]. unfold take_member. cbn [chain].
  destruct (field_index names (fst e)) as [[i|]|] eqn:Ei, (field_index names (fst e')) as [[j|]|] eqn:Ej; cbn [chain];
    try reflexivity; try (destruct (put_slot s i (snd e)); reflexivity); try (destruct (put_slot s j (snd e')); reflexivity).
  destruct (Nat.eq_dec i j) as [<-|N]; [|exact (put_put s i j _ _ N)].
  pose proof (put_again s i (snd e) (snd e')) as K1. pose proof (put_again s i (snd e') (snd e)) as K2.
  unfold chain in *. rewrite K1, K2. reflexivity.
Qed.

Lemma struct_permuted names l l' : Permutation l l' -> struct_fields names (InMap l) = struct_fields names (InMap l').
Proof.
  intros H. cbn [struct_fields]. f_equal. generalize (Some (repeat (@None input) (List.length names))) as s.
  induction H as [|e l l' H IH|e e' l|l l' l'' H1 IH1 H2 IH2]; intros s; cbn [fold_left]; auto.
  - rewrite take_swap. reflexivity.
  - rewrite IH1. apply IH2.
Qed.

Lemma struct_unknown names k v l : position_of names k = None -> struct_fields names (InMap ((InStr k, v) :: l)) = struct_fields names (InMap l).
Proof. intros H. cbn [struct_fields fold_left]. unfold take_member at 2. cbn [chain fst field_index]. rewrite H. reflexivity. Qed.

(** ** Volume parameters *)

Lemma read_uint_spec bits n v : read_uint bits (InNum n) = Some v <-> v = n /\ (0 <= n < 2 ^ bits)%Z.
Proof.
  unfold read_uint. destruct ((0 <=? n) && (n <? 2 ^ bits))%Z%bool eqn:E.
  - apply andb_prop in E as [E1 E2]. apply Z.leb_le in E1. apply Z.ltb_lt in E2. split; [intros [= <-]; auto|intros [-> _]; reflexivity].
  - split; [discriminate|]. intros [_ [H1 H2]]. apply Z.leb_le in H1. apply Z.ltb_lt in H2. rewrite H1, H2 in E. discriminate.
Qed.

Lemma params_back fmt p t : in_range p -> write fmt (params_data p) = Some t -> read_params t = Some p.
Proof.
  intros (H1 & H2 & H3) H. apply struct_back in H as (ts & Hts & E); [|distinct|reflexivity]. fields Hts. unfold read_params. rewrite E. cbn [chain].
  repeat match goal with K : write _ (DtNum _) = Some _ |- _ => injection K as <- end.
  rewrite !(proj2 (read_uint_spec _ _ _) (conj eq_refl H1)). cbn [chain].
  rewrite (proj2 (read_uint_spec 16 _ _) (conj eq_refl H2)). cbn [chain].
  rewrite (proj2 (read_uint_spec 16 _ _) (conj eq_refl H3)). destruct p. reflexivity.
Qed.

Lemma params_some fmt p : write fmt (params_data p) <> None.
Proof.
  unfold params_data. rewrite struct_none by reflexivity. intros H.
  repeat match goal with H : Exists _ [] |- _ => inversion H | H : Exists _ (_ :: _) |- _ => apply Exists_cons in H as [H|H] end; discriminate.
Qed.

Lemma read_params_range t p : read_params t = Some p -> in_range p.
Proof.
  unfold read_params. destruct (struct_fields params_fields t) as [[|v [|b [|h [|]]]]|]; try discriminate. cbn [chain].
  assert (G : forall bits u x, read_uint bits u = Some x -> (0 <= x < 2 ^ bits)%Z).
  { intros bits u x H. destruct u; try discriminate. apply read_uint_spec in H as [-> H]. exact H. }
  destruct (read_uint 64 v) eqn:E1; [|discriminate]. destruct (read_uint 16 b) eqn:E2; [|discriminate].
  destruct (read_uint 16 h) eqn:E3; [|discriminate]. cbn [chain]. intros [= <-]. repeat split; cbn [volume_size log_block_size log_file_header_size]; eapply G; eassumption.
Qed.

(** ** Exactly the complete structs are read *)

Lemma position_nth names s i : NoDup names -> (position_of names s = Some i <-> nth_error names i = Some s).
Proof.
  intros Hn. revert i. induction Hn as [|n names Hin Hn IH]; intros i; cbn [position_of].
  - destruct i; split; discriminate.
  - destruct (str_eqb n s) eqn:E.
    + apply str_eqb_spec in E. subst. destruct i as [|i]; cbn [nth_error]; [split; reflexivity|]. split; [discriminate|].
      intros H. exfalso. apply Hin. exact (nth_error_In _ _ H).
    + assert (N : n <> s) by (intros ->; rewrite (proj2 (str_eqb_spec s s) eq_refl) in E; discriminate).
      destruct i as [|i]; cbn [nth_error].
      * split; [destruct (position_of names s); discriminate|congruence].
      * rewrite <- IH. destruct (position_of names s); cbn; split; congruence.
Qed.

Lemma field_index_spec names k i : NoDup names -> i < List.length names ->
  (field_index names k = Some (Some i) <-> names_field names i k = true).
Proof.
  intros Hn Hi. destruct k as [b|n|s|l|l|v c]; cbn [field_index names_field]; try (split; discriminate).
  - destruct (n <? 0)%Z eqn:E1; [apply Z.ltb_lt in E1|apply Z.ltb_ge in E1].
    + split; [discriminate|]. intros H. apply Z.eqb_eq in H. lia.
    + destruct (n <? Z.of_nat (List.length names))%Z eqn:E2; [apply Z.ltb_lt in E2|apply Z.ltb_ge in E2]; rewrite Z.eqb_eq.
      * split; [intros [= <-]; lia|intros ->; rewrite Nat2Z.id; reflexivity].
      * split; [discriminate|lia].
  - split.
    + intros [= H]. apply position_nth in H; [|exact Hn]. rewrite H. destruct (list_eq_dec Z.eq_dec s s); congruence.
    + destruct (nth_error names i) as [m|] eqn:E; [|discriminate]. destruct (list_eq_dec Z.eq_dec m s) as [<-|]; [|discriminate]. intros _.
      f_equal. apply position_nth; assumption.
Qed.

Lemma field_index_label names k : field_index names k = None <-> is_label k = false.
Proof.
  destruct k; cbn [field_index is_label]; split; try discriminate; auto.
  - destruct (n <? 0)%Z eqn:E; [|discriminate]. apply Z.ltb_lt in E. intros _. apply Z.leb_gt, E.
  - intros H. apply Z.leb_gt in H. apply Z.ltb_lt in H. rewrite H. reflexivity.
Qed.

Lemma field_index_range names k i : field_index names k = Some (Some i) -> i < List.length names.
Proof.
  destruct k; try discriminate; cbn [field_index].
  - destruct (n <? 0)%Z eqn:E1; [discriminate|]. apply Z.ltb_ge in E1.
    destruct (n <? Z.of_nat (List.length names))%Z eqn:E2; [|discriminate]. apply Z.ltb_lt in E2. intros [= <-]. lia.
  - intros [= H]. revert i H. induction names as [|n names IH]; intros i; cbn [position_of List.length]; [discriminate|].
    destruct (str_eqb n s); [intros [= <-]; lia|]. destruct (position_of names s) as [j|]; [|discriminate]. intros [= <-].
    specialize (IH j eq_refl). lia.
Qed.

Definition held (o : option input) : list input := match o with None => [] | Some v => [v] end.
Definition slot (s : list (option input)) (i : nat) : list input := held (nth i s None).

Lemma put_slot_spec s i v s' : put_slot s i v = Some s' ->
  List.length s' = List.length s /\ forall j, slot s' j = slot s j ++ (if Nat.eqb j i then [v] else []).
Proof.
  revert i s'. induction s as [|o s IH]; intros i s' H; [destruct i; discriminate|]. destruct i as [|i]; cbn [put_slot] in H.
  - destruct o; [discriminate|]. injection H as <-. split; [reflexivity|]. intros [|j]; unfold slot; cbn; [reflexivity|]. rewrite app_nil_r. reflexivity.
  - assert (G : exists s1, put_slot s i v = Some s1 /\ s' = o :: s1).
    { destruct o; destruct (put_slot s i v) as [s1|]; try discriminate; injection H as <-; exists s1; split; reflexivity. }
    destruct G as (s1 & E & ->). destruct (IH _ _ E) as [L K]. split; [cbn; congruence|]. intros [|j]; unfold slot; cbn [nth Nat.eqb].
    + rewrite app_nil_r. reflexivity.
    + exact (K j).
Qed.

Lemma put_slot_free s i v : i < List.length s -> slot s i = [] -> put_slot s i v <> None.
Proof.
  revert i. induction s as [|o s IH]; intros i Hi Hs; [cbn in Hi; lia|]. destruct i as [|i]; cbn [put_slot].
  - unfold slot in Hs. cbn in Hs. destruct o; [discriminate|]. discriminate.
  - assert (K : put_slot s i v <> None) by (apply IH; [cbn in Hi; lia|exact Hs]).
    destruct o; destruct (put_slot s i v); cbn; congruence.
Qed.

Lemma put_slot_taken s i v s' : put_slot s i v = Some s' -> slot s i = [].
Proof.
  revert i s'. induction s as [|o s IH]; intros i s' H; [destruct i; discriminate|]. destruct i as [|i]; cbn [put_slot] in H.
  - destruct o; [discriminate|]. reflexivity.
  - unfold slot. cbn [nth]. assert (G : exists s1, put_slot s i v = Some s1) by (destruct o; destruct (put_slot s i v); try discriminate; eauto).
    destruct G as (s1 & G). exact (IH _ _ G).
Qed.

Definition given (names : list str) (i : nat) (e : input * input) : bool := names_field names i (fst e).

Lemma members_slots names l s s' : NoDup names -> List.length s = List.length names ->
  (fold_left (take_member names) l (Some s) = Some s' <->
   List.length s' = List.length names /\ Forall (fun e => is_label (fst e) = true) l /\
   forall i, i < List.length names -> slot s' i = slot s i ++ map snd (filter (given names i) l)).
Proof.
  intros Hn. revert s. induction l as [|e l IH]; intros s Hs; cbn [fold_left].
  - split.
    + intros [= <-]. repeat split; [exact Hs|constructor|]. intros i _. cbn. rewrite app_nil_r. reflexivity.
    + intros (L & _ & K). f_equal. apply (nth_ext _ _ None None); [congruence|]. intros i Hi. rewrite Hs in Hi. specialize (K i Hi).
      cbn in K. rewrite app_nil_r in K. unfold slot in K. destruct (nth i s None), (nth i s' None); cbn in K; congruence.
  - assert (NO : forall l, fold_left (take_member names) l None = None) by (clear; induction l; [reflexivity|exact IHl]).
    destruct (field_index names (fst e)) as [[i|]|] eqn:E.
    + unfold take_member at 2. cbn [chain]. rewrite E. cbn [chain]. pose proof (field_index_range _ _ _ E) as Hi.
      assert (Lab : is_label (fst e) = true). { destruct (is_label (fst e)) eqn:F; [reflexivity|]. apply (field_index_label names) in F. congruence. }
      assert (G : forall j, j < List.length names -> given names j e = Nat.eqb j i).
      { intros j Hj. apply eq_true_iff_eq. unfold given. rewrite <- (field_index_spec names (fst e) j Hn Hj), E, Nat.eqb_eq. split; congruence. }
      destruct (put_slot s i (snd e)) as [s1|] eqn:Ep.
      * destruct (put_slot_spec _ _ _ _ Ep) as [L1 K1]. rewrite (IH s1 (eq_trans L1 Hs)).
        assert (Q : forall j, j < List.length names -> slot s1 j ++ map snd (filter (given names j) l) = slot s j ++ map snd (filter (given names j) (e :: l))).
        { intros j Hj. rewrite K1. cbn [filter]. rewrite (G j Hj), <- app_assoc. destruct (Nat.eqb j i); reflexivity. }
        split; intros (A & B & C).
        -- repeat split; [exact A|constructor; assumption|]. intros j Hj. rewrite <- Q by exact Hj. apply C, Hj.
        -- inversion B; subst. repeat split; [exact A|assumption|]. intros j Hj. rewrite Q by exact Hj. apply C, Hj.
      * rewrite NO. split; [discriminate|]. intros (A & B & C). exfalso. specialize (C i Hi). cbn [filter] in C.
        rewrite (G i Hi), Nat.eqb_refl in C. cbn [map] in C.
        assert (F : slot s i <> []). { intros F. apply (put_slot_free s i (snd e)) in F; [congruence|lia]. }
        unfold slot in C, F. destruct (nth i s None) as [w|]; [|exfalso; apply F; reflexivity]. cbn in C. destruct (nth i s' None); cbn in C; discriminate.
    + unfold take_member at 2. cbn [chain]. rewrite E. cbn [chain]. rewrite (IH s Hs).
      assert (Lab : is_label (fst e) = true). { destruct (is_label (fst e)) eqn:F; [reflexivity|]. apply (field_index_label names) in F. congruence. }
      assert (Q : forall j, j < List.length names -> filter (given names j) (e :: l) = filter (given names j) l).
      { intros j Hj. cbn [filter]. destruct (given names j e) eqn:F; [|reflexivity]. unfold given in F. apply (field_index_spec names _ j Hn Hj) in F. congruence. }
      split; intros (A & B & C).
      * repeat split; [exact A|constructor; assumption|]. intros j Hj. rewrite Q by exact Hj. apply C, Hj.
      * inversion B; subst. repeat split; [exact A|assumption|]. intros j Hj. rewrite <- Q by exact Hj. apply C, Hj.
    + unfold take_member at 2. cbn [chain]. rewrite E. cbn [chain]. rewrite NO. split; [discriminate|]. intros (_ & B & _). inversion B; subst.
      apply field_index_label in E. congruence.
Qed.

Lemma struct_complete names l ts : NoDup names -> (struct_fields names (InMap l) = Some ts <-> complete names l ts).
Proof.
  intros Hn. cbn [struct_fields]. set (s0 := repeat (@None input) (List.length names)).
  assert (L0 : List.length s0 = List.length names) by apply repeat_length.
  assert (S0 : forall i, slot s0 i = []).
  { intros i. unfold slot, s0. destruct (Nat.lt_ge_cases i (List.length names)) as [H|H].
    - rewrite nth_repeat. reflexivity.
    - rewrite nth_overflow by (rewrite repeat_length; exact H). reflexivity. }
  split.
  - destruct (fold_left (take_member names) l (Some s0)) as [s|] eqn:E; [|discriminate]. cbn [chain]. intros H.
    apply (members_slots names l s0 s Hn L0) in E as (L & B & C). apply all_forall2 in H.
    assert (HM : s = map Some ts) by (clear -H; induction H as [|a b x y Hab Hxy IH]; [reflexivity|]; cbn in Hab; subst; cbn; f_equal; exact IH). subst s. rewrite map_length in L.
    split; [exact L|]. split; [exact B|]. intros i v Hv.
    assert (Hi : i < List.length names) by (rewrite <- L; apply nth_error_Some; rewrite Hv; discriminate).
    specialize (C i Hi). rewrite S0 in C. cbn [app] in C. unfold given in C.
    rewrite <- C. unfold slot. rewrite (nth_error_nth _ _ None (map_nth_error Some _ _ Hv)). reflexivity.
  - intros (L & B & C).
    assert (E : fold_left (take_member names) l (Some s0) = Some (map Some ts)).
    { apply (members_slots names l s0 _ Hn L0). rewrite map_length. repeat split; [exact L|exact B|]. intros i Hi. rewrite S0. cbn [app].
      rewrite <- L in Hi. apply nth_error_Some in Hi. destruct (nth_error ts i) as [v|] eqn:Ev; [|congruence].
      unfold given. rewrite (C i v Ev). unfold slot. rewrite (nth_error_nth _ _ None (map_nth_error Some _ _ Ev)). reflexivity. }
    rewrite E. apply all_id.
Qed.
