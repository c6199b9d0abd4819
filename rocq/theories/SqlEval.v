(** * Accepted expressions evaluate without type errors *)

From Verif Require Import Base SqlNameModel SqlModel SqlNameProofs SqlTypeProofs SqlSpec SqlScope.

Lemma rbind_ok {A B} (x : res A) (f : A -> res B) b :
  rbind x f = ok b <-> exists a, x = ok a /\ f a = ok b.
Proof.
  unfold rbind, ok. destruct x as [[a|e]| |]; cbn; split; try discriminate; try (intros (a' & E & _); discriminate).
  - intros E. eauto.
  - intros (a' & [= <-] & E). exact E.
Qed.

Lemma pure_ok {A} (r : result A unit) a : pure r = ok a <-> r = Ok a.
Proof. unfold pure, ok. split; [intros [= ->]; reflexivity|intros ->; reflexivity]. Qed.

Lemma ok_inj {A} (a b : A) : ok a = ok b -> a = b.
Proof. intros [= ->]. reflexivity. Qed.

Ltac inv_ok :=
  repeat match goal with
  | H : rbind _ _ = ok _ |- _ => let a := fresh "a" in let E := fresh "E" in apply rbind_ok in H as (a & E & H)
  | H : pure _ = ok _ |- _ => apply pure_ok in H
  | H : ok _ = ok _ |- _ => apply ok_inj in H
  | H : (let '(_, _) := ?p in _) = ok _ |- _ => destruct p
  end.

(** Induction over the expressions of the fragment. *)
Section PlainInd.
Context (P : expr -> Prop)
  (Hlit : forall l, P (ELiteral l)) (Hname : forall q, P (EName q)) (Htup : forall es, Forall P es -> P (ETuple es))
  (Hun : forall op e, P e -> P (EUnary op e)) (Hbin : forall op l r, P l -> P r -> P (EBinary op l r))
  (Hcmp : forall op l r, P l -> P r -> P (ECompare op l r))
  (Hbet : forall e lo hi, P e -> P lo -> P hi -> P (EBetween e lo hi))
  (Hin : forall e s, P (EIn e s)) (Hcase : forall o w e, P (ECase o w e)) (Hsel : forall s, P (ESelect s)).
Fixpoint plain_induction (e : expr) : P e :=
  match e with
  | ELiteral l => Hlit l
  | EName q => Hname q
  | ETuple es => Htup es ((fix go (l : list expr) : Forall P l :=
                             match l with
                             | [] => Forall_nil P
                             | a :: l' => Forall_cons a (plain_induction a) (go l')
                             end) es)
  | ESelect s => Hsel s
  | EUnary op e => Hun op e (plain_induction e)
  | EBinary op l r => Hbin op l r (plain_induction l) (plain_induction r)
  | ECompare op l r => Hcmp op l r (plain_induction l) (plain_induction r)
  | EIn e s => Hin e s
  | EBetween e lo hi => Hbet e lo hi (plain_induction e) (plain_induction lo) (plain_induction hi)
  | ECase o w e => Hcase o w e
  end.
End PlainInd.

Section ValueInd.
Context (P : value -> Prop) (Hn : P VNull) (Hb : forall b, P (VBool b)) (Hd : forall t p, P (VData t p))
  (Hr : forall l, Forall P l -> P (VRow l)).
Fixpoint value_induction (v : value) : P v :=
  match v with
  | VNull => Hn
  | VBool b => Hb b
  | VData t p => Hd t p
  | VRow l => Hr l ((fix go (l : list value) : Forall P l :=
                       match l with
                       | [] => Forall_nil P
                       | a :: l' => Forall_cons a (value_induction a) (go l')
                       end) l)
  end.
End ValueInd.

Lemma of_stypes_Forall2 vs ts : of_stypes vs ts <-> Forall2 of_stype vs ts.
Proof.
  split.
  - revert ts; induction vs as [|v vs IH]; intros ts H; inversion H; subst; constructor; auto.
  - induction 1; constructor; assumption.
Qed.

Lemma of_stype_scalar v t n : of_stype v (TyScalar t n) <-> of_type v t.
Proof. split; [intros H; inversion H; assumption|constructor; assumption]. Qed.

Lemma of_stype_tuple v ts : of_stype v (TyTuple ts) <-> exists vs, v = VRow vs /\ Forall2 of_stype vs ts.
Proof.
  split.
  - intros H. inversion H; subst. rewrite of_stypes_Forall2 in *. eauto.
  - intros (vs & -> & H). constructor. apply of_stypes_Forall2. exact H.
Qed.

(** A value respects a type including its nullability. *)
Definition fits (strict : bool) (v : value) (t : stype) : Prop :=
  of_stype v t /\ (strict = true -> forall d, t = TyScalar d false -> v <> VNull).

(** The answers allowed for an expression of type [t]. *)
Definition good (strict : bool) (r : answer) (t : stype) : Prop :=
  (exists v, r = Val v /\ fits strict v t) \/ r = Arithmetic.

Lemma good_val strict v t : fits strict v t -> good strict (Val v) t.
Proof. intros H. left. eauto. Qed.

Lemma fits_null strict t : fits strict VNull (TyScalar t true).
Proof. split; [constructor; exact I|]. intros _ d [=]. Qed.

Lemma fits_data strict t p n : t <> DLogical -> fits strict (VData t p) (TyScalar t n).
Proof. intros H. split; [constructor; cbn; auto|discriminate]. Qed.

Lemma fits_bool strict b n : fits strict (VBool b) (TyScalar DLogical n).
Proof. split; [constructor; reflexivity|discriminate]. Qed.

(** A value fitting a scalar type: NULL if that is allowed, or a datum. *)
Lemma fits_cases strict v t n : fits strict v (TyScalar t n) ->
  (v = VNull /\ (strict = true -> n = true)) \/ (exists b, v = VBool b /\ t = DLogical) \/
  (exists p, v = VData t p /\ t <> DLogical).
Proof.
  intros [H1 H2]. apply of_stype_scalar in H1. destruct v as [|b|t' p|l]; cbn in H1.
  - left. split; [reflexivity|]. intros Hs. destruct n; [reflexivity|]. exfalso. eapply H2; eauto.
  - right. left. eauto.
  - right. right. destruct H1 as [-> H1]. eauto.
  - contradiction.
Qed.

Lemma as_number_fits strict v n : fits strict v (TyScalar DNumeric n) ->
  (as_number v = Some None /\ (strict = true -> n = true)) \/ exists p, as_number v = Some (Some p).
Proof. intros H. apply fits_cases in H as [[-> H]|[(b & -> & [=])|(p & -> & _)]]; cbn; eauto. Qed.

Lemma as_text_fits strict v n : fits strict v (TyScalar DVarchar n) ->
  (as_text v = Some None /\ (strict = true -> n = true)) \/ exists p, as_text v = Some (Some p).
Proof. intros H. apply fits_cases in H as [[-> H]|[(b & -> & [=])|(p & -> & _)]]; cbn; eauto. Qed.

Lemma as_truth_fits strict v n : fits strict v (TyScalar DLogical n) ->
  (as_truth v = Some None /\ (strict = true -> n = true)) \/ exists b, as_truth v = Some (Some b).
Proof. intros H. apply fits_cases in H as [[-> H]|[(b & -> & _)|(p & -> & [])]]; cbn; eauto. Qed.

Lemma fits_null_if strict t n : (strict = true -> n = true) -> fits strict VNull (TyScalar t n).
Proof. intros H. split; [constructor; exact I|]. intros Hs d [= -> ->]. specialize (H Hs). discriminate. Qed.

Lemma fits_truth strict o n : (o = None -> strict = true -> n = true) -> fits strict (truth o) (TyScalar DLogical n).
Proof. intros H. destruct o; cbn; [apply fits_bool|apply fits_null_if; auto]. Qed.

Section Eval.
Context (up : Z -> list Z) (w : world).

Lemma eval_unary_good strict op v t t' : op <> UIsNull ->
  fits strict v t -> unary_type op t = Ok t' -> good strict (eval_unary w op v) t'.
Proof.
  intros Hop Hv Ht. destruct op; [| |contradiction]; cbn in Ht.
  - destruct t as [|[] n]; try discriminate. injection Ht as <-. cbn.
    destruct (as_number_fits _ _ _ Hv) as [[-> Hn]|[p ->]].
    + apply good_val. apply fits_null_if. exact Hn.
    + unfold number. destruct (w_negate w p); [apply good_val; apply fits_data; discriminate|right; reflexivity].
  - destruct t as [|[] n]; try discriminate. injection Ht as <-. cbn.
    destruct (as_truth_fits _ _ _ Hv) as [[-> Hn]|[b ->]]; apply good_val; apply fits_truth; cbn; auto; discriminate.
Qed.

Ltac nullable := intros ?; repeat match goal with H : ?s = true -> _, K : ?s = true |- _ => rewrite (H K) end;
  rewrite ?orb_true_r; reflexivity.

Lemma eval_binary_good strict op a b t1 t2 t' :
  fits strict a t1 -> fits strict b t2 -> binary_type op t1 t2 = Ok t' -> good strict (eval_binary w op a b) t'.
Proof.
  intros Ha Hb Ht.
  assert (Harith : forall n1 n2, t1 = TyScalar DNumeric n1 -> t2 = TyScalar DNumeric n2 ->
    good strict (match as_number a, as_number b with
                 | Some (Some p), Some (Some q) => number (w_arith w op p q)
                 | Some _, Some _ => Val VNull
                 | _, _ => TypeError
                 end) (TyScalar DNumeric (n1 || n2))).
  { intros n1 n2 -> ->.
    destruct (as_number_fits _ _ _ Ha) as [[-> Hn]|[p ->]], (as_number_fits _ _ _ Hb) as [[-> Hm]|[q ->]];
      try (apply good_val; apply fits_null_if; nullable).
    unfold number. destruct (w_arith w op p q); [apply good_val; apply fits_data; discriminate|right; reflexivity]. }
  assert (Hlog : forall f n1 n2, t1 = TyScalar DLogical n1 -> t2 = TyScalar DLogical n2 ->
    (forall p q, f (Some p) (Some q) <> @None bool) ->
    good strict (match as_truth a, as_truth b with
                 | Some p, Some q => Val (truth (f p q))
                 | _, _ => TypeError
                 end) (TyScalar DLogical (n1 || n2))).
  { intros f n1 n2 -> -> Hf.
    destruct (as_truth_fits _ _ _ Ha) as [[-> Hn]|[p ->]], (as_truth_fits _ _ _ Hb) as [[-> Hm]|[q ->]];
      apply good_val; apply fits_truth; intros Hq; try nullable.
    exfalso. eapply Hf; eauto. }
  destruct op; cbn in Ht; destruct t1 as [|[] n1]; try discriminate; destruct t2 as [|[] n2]; try discriminate;
    injection Ht as <-; cbn [eval_binary]; eauto.
  - destruct (as_text_fits _ _ _ Ha) as [[-> Hn]|[p ->]], (as_text_fits _ _ _ Hb) as [[-> Hm]|[q ->]];
      try (apply good_val; apply fits_null_if; nullable).
    apply good_val. apply fits_data. discriminate.
  - apply (Hlog and3); auto. intros [] []; discriminate.
  - apply (Hlog or3); auto. intros [] []; discriminate.
Qed.

Lemma good_judged strict o n : (exists t, o = Some t /\ (t = None -> strict = true -> n = true)) ->
  good strict (judged o) (TyScalar DLogical n).
Proof. intros (t & -> & H). cbn. apply good_val. apply fits_truth. exact H. Qed.

Lemma negated_some o t : o = Some t -> negated o = Some (not3 t).
Proof. intros ->. reflexivity. Qed.

Lemma not3_none t : not3 t = None -> t = None.
Proof. destruct t; [discriminate|reflexivity]. Qed.

Lemma equal3_scalar strict a b t n1 n2 :
  fits strict a (TyScalar t n1) -> fits strict b (TyScalar t n2) ->
  exists o, equal3 w a b = Some o /\ (o = None -> strict = true -> n1 || n2 = true).
Proof.
  intros Ha Hb.
  destruct (fits_cases _ _ _ _ Ha) as [[-> Hn]|[(p & -> & Hp)|(p & -> & Hp)]],
           (fits_cases _ _ _ _ Hb) as [[-> Hm]|[(q & -> & Hq)|(q & -> & Hq)]]; cbn; try contradiction;
    try (eexists; split; [reflexivity|]; intros _; nullable).
  - eexists. split; [reflexivity|]. discriminate.
  - rewrite dt_eqb_refl. eexists. split; [reflexivity|]. discriminate.
Qed.

Lemma less3_scalar strict a b t n1 n2 : is_ordered t = true ->
  fits strict a (TyScalar t n1) -> fits strict b (TyScalar t n2) ->
  exists o, less3 w a b = Some o /\ (o = None -> strict = true -> n1 || n2 = true).
Proof.
  intros Ho Ha Hb.
  destruct (fits_cases _ _ _ _ Ha) as [[-> Hn]|[(p & -> & Hp)|(p & -> & Hp)]],
           (fits_cases _ _ _ _ Hb) as [[-> Hm]|[(q & -> & Hq)|(q & -> & Hq)]]; cbn;
    try (subst t; discriminate);
    try (eexists; split; [reflexivity|]; intros _; nullable).
  rewrite dt_eqb_refl, Ho. eexists. split; [reflexivity|]. discriminate.
Qed.

(** Equality of two values of compatible types is never a type error. *)
Lemma equal3_some a : forall b t1 t2 n, of_stype a t1 -> of_stype b t2 -> is_compatible t1 t2 = Ok n ->
  exists o, equal3 w a b = Some o.
Proof.
  induction a as [|bb|dd pp|l IH] using value_induction; intros b t1 t2 n Ha Hb Hc.
  1-3: inversion Ha; subst; destruct t2 as [|t2 n2]; [discriminate|];
    apply compatible_scalar in Hc as [<- _];
    edestruct (equal3_scalar false) as (o & Ho & _);
    [split; [exact Ha|discriminate]|split; [exact Hb|discriminate]|]; rewrite Ho; eauto.
  destruct t1 as [ts1|t1 n1]; [|inversion Ha; subst; cbn in *; contradiction].
  destruct t2 as [ts2|t2 n2]; [|discriminate].
  apply of_stype_tuple in Ha as (vs1 & [= <-] & Ha). apply of_stype_tuple in Hb as (vs2 & -> & Hb).
  cbn [is_compatible] in Hc. destruct (Nat.eqb_spec (length ts1) (length ts2)) as [Hl|Hl]; [cbn [negb] in Hc|discriminate].
  destruct (compat_fold_ok is_compatible ts1 ts2 Hl) as [[_ Hf]|[E _]]; [|congruence]. clear Hc.
  cbn [equal3]. clear Hl. revert vs2 ts1 ts2 Ha Hb Hf.
  induction IH as [|v l Hv Hl IH]; intros vs2 ts1 ts2 Ha Hb Hf; inversion Ha; subst; inversion Hf; subst; inversion Hb; subst; cbn.
  - eauto.
  - match goal with H : exists n, is_compatible _ _ = Ok n |- _ => destruct H as [m Hm] end. edestruct Hv as [o ->]; [eassumption|eassumption|eassumption|].
    edestruct IH as [o' ->]; [eassumption|eassumption|eassumption|]. eauto.
Qed.

Lemma eval_compare_good strict op a b t1 t2 t' : 
  (strict = true -> (exists d n, t1 = TyScalar d n) /\ (exists d n, t2 = TyScalar d n)) ->
  fits strict a t1 -> fits strict b t2 -> compare_type op t1 t2 = Ok t' -> good strict (eval_compare w op a b) t'.
Proof.
  intros Hscal Ha Hb Ht.
  assert (Heq : forall n, is_compatible t1 t2 = Ok n -> exists o, equal3 w a b = Some o /\ (o = None -> strict = true -> n = true)).
  { intros n Hn. destruct (equal3_some a b t1 t2 n (proj1 Ha) (proj1 Hb) Hn) as [o Ho].
    exists o. split; [exact Ho|]. intros -> Hs. destruct (Hscal Hs) as [(d1 & n1 & ->) (d2 & n2 & ->)].
    apply compatible_scalar in Hn as [<- ->].
    destruct (equal3_scalar strict a b d1 n1 n2 Ha Hb) as (o & Ho' & H). apply H; [congruence|exact Hs]. }
  assert (Hord : forall a b t1 t2, fits strict a t1 -> fits strict b t2 ->
                 match t1, t2 with
                 | TyScalar t1 n1, TyScalar t2 n2 =>
                     if dt_eqb t1 t2 && is_ordered t1 then Ok (TyScalar DLogical (n1 || n2)) else Err tt
                 | _, _ => @Err stype unit tt
                 end = Ok t' ->
                 exists n o, t' = TyScalar DLogical n /\ less3 w a b = Some o /\ (o = None -> strict = true -> n = true)).
  { intros a0 b0 [|d1 n1] [|d2 n2] Ha0 Hb0 H; try discriminate.
    destruct (dt_eqb d1 d2 && is_ordered d1) eqn:E; [|discriminate]. injection H as <-.
    apply andb_true_iff in E as [E1 E2]. apply dt_eqb_eq in E1 as <-.
    destruct (less3_scalar strict a0 b0 d1 n1 n2 E2 Ha0 Hb0) as (o & Ho & H). eauto. }
  assert (Hflip : match t2, t1 with
                 | TyScalar t1 n1, TyScalar t2 n2 =>
                     if dt_eqb t1 t2 && is_ordered t1 then Ok (TyScalar DLogical (n1 || n2)) else Err tt
                 | _, _ => @Err stype unit tt
                 end = match t1, t2 with
                 | TyScalar t1 n1, TyScalar t2 n2 =>
                     if dt_eqb t1 t2 && is_ordered t1 then Ok (TyScalar DLogical (n1 || n2)) else Err tt
                 | _, _ => @Err stype unit tt
                 end).
  { destruct t1 as [|d1 n1], t2 as [|d2 n2]; try reflexivity.
    destruct (dt_eqb d1 d2) eqn:E.
    - apply dt_eqb_eq in E as <-. rewrite dt_eqb_refl. rewrite orb_comm. reflexivity.
    - destruct (dt_eqb d2 d1) eqn:E'; [apply dt_eqb_eq in E' as ->; rewrite dt_eqb_refl in E; discriminate|reflexivity]. }
  destruct op; cbn [compare_type] in Ht; cbn [eval_compare].
  - destruct (is_compatible t1 t2) as [n|] eqn:E; [|discriminate]. injection Ht as <-.
    destruct (Heq n eq_refl) as (o & Ho & H). rewrite Ho. apply good_judged. eauto.
  - destruct (is_compatible t1 t2) as [n|] eqn:E; [|discriminate]. injection Ht as <-.
    destruct (Heq n eq_refl) as (o & Ho & H). rewrite (negated_some _ _ Ho). apply good_judged.
    exists (not3 o). split; [reflexivity|]. intros Hn. apply H, not3_none, Hn.
  - destruct (Hord a b t1 t2 Ha Hb Ht) as (n & o & -> & Ho & H). rewrite Ho. apply good_judged. eauto.
  - rewrite <- Hflip in Ht. destruct (Hord b a t2 t1 Hb Ha Ht) as (n & o & -> & Ho & H).
    rewrite (negated_some _ _ Ho). apply good_judged. exists (not3 o). split; [reflexivity|]. intros Hn. apply H, not3_none, Hn.
  - rewrite <- Hflip in Ht. destruct (Hord b a t2 t1 Hb Ha Ht) as (n & o & -> & Ho & H). rewrite Ho. apply good_judged. eauto.
  - destruct (Hord a b t1 t2 Ha Hb Ht) as (n & o & -> & Ho & H).
    rewrite (negated_some _ _ Ho). apply good_judged. exists (not3 o). split; [reflexivity|]. intros Hn. apply H, not3_none, Hn.
  - destruct t1 as [|[] n1]; try discriminate; destruct t2 as [|[] n2]; try discriminate. injection Ht as <-.
    destruct (as_text_fits _ _ _ Ha) as [[-> Hn]|[p ->]], (as_text_fits _ _ _ Hb) as [[-> Hm]|[q ->]];
      try (apply good_val; apply fits_null_if; nullable).
    apply good_val. apply fits_bool.
Qed.

Lemma eval_between_good strict e lo hi t t1 t2 t' :
  fits strict e t -> fits strict lo t1 -> fits strict hi t2 -> between_type t t1 t2 = Ok t' ->
  good strict (eval_between w e lo hi) t'.
Proof.
  intros He Hlo Hhi Ht. destruct t as [|d n], t1 as [|d1 n1], t2 as [|d2 n2]; try discriminate. cbn in Ht.
  destruct (dt_eqb d d1 && dt_eqb d d2 && is_ordered d) eqn:E; [|discriminate]. injection Ht as <-.
  apply andb_true_iff in E as [E Ho]. apply andb_true_iff in E as [E1 E2].
  apply dt_eqb_eq in E1 as <-. apply dt_eqb_eq in E2 as <-.
  destruct (less3_scalar strict e lo d n n1 Ho He Hlo) as (o1 & O1 & H1).
  destruct (less3_scalar strict hi e d n2 n Ho Hhi He) as (o2 & O2 & H2).
  unfold eval_between. rewrite (negated_some _ _ O1), (negated_some _ _ O2). apply good_val. apply fits_truth.
  intros Hn Hs.
  assert (Hd : o1 = None \/ o2 = None) by (destruct o1 as [[]|], o2 as [[]|]; cbn in Hn; auto; discriminate).
  destruct Hd as [Hd|Hd].
  - specialize (H1 Hd Hs). destruct n, n1; try discriminate; reflexivity.
  - specialize (H2 Hd Hs). destruct n, n2; try discriminate; rewrite ?orb_true_r; reflexivity.
Qed.

(** ** Columns *)

Lemma conforms_filter rels en a :
  conforms rels en ->
  Forall2 (fun a c => a_name a = fst c /\ of_type (snd c) (a_type a) /\ (a_null a = false -> snd c <> VNull))
          (named up a (flat_map snd rels)) (filter (fun c => name_eqb up a (fst c)) (flat_map snd en)).
Proof.
  intros H. unfold named.
  assert (G : Forall2 (fun a c => a_name a = fst c /\ of_type (snd c) (a_type a) /\ (a_null a = false -> snd c <> VNull))
                      (flat_map snd rels) (flat_map snd en)).
  { induction H as [|r e rels en [_ Hr] H IH]; [constructor|]. cbn. apply Forall2_app; assumption. }
  induction G as [|b c l1 l2 (E & H1) G IH]; [constructor|]. cbn. rewrite E.
  destruct (name_eqb up a (fst c)); [constructor; auto|exact IH].
Qed.

Lemma filter_named l a b : last_named up l b -> name_eqb up a (a_name b) = true ->
  ForallOrdPairs (fun m k => name_eqb up m k = false) (map a_name l) -> named up a l = [b].
Proof.
  intros (l1 & l2 & -> & H2) Hb Hd. unfold named. rewrite filter_app. cbn. rewrite Hb.
  assert (F2 : filter (fun c => name_eqb up a (a_name c)) l2 = []).
  { clear Hd. induction H2 as [|c l2 Hc H2 IH]; [reflexivity|]. cbn.
    rewrite (name_eqb_congr_l up _ _ (a_name c) Hb), Hc. exact IH. }
  assert (F1 : filter (fun c => name_eqb up a (a_name c)) l1 = []).
  { clear H2 F2. induction l1 as [|c l1 IH]; [reflexivity|]. cbn in Hd. inversion Hd as [|? ? D1 D2]; subst. cbn.
    rewrite (IH D2). rewrite Forall_forall in D1. specialize (D1 (a_name b)).
    rewrite (name_eqb_congr_l up _ _ (a_name c) Hb), name_eqb_sym.
    rewrite D1; [reflexivity|]. rewrite map_app. apply in_or_app. cbn. auto. }
  rewrite F1, F2. reflexivity.
Qed.

Lemma conforms_rel rels en r : conforms rels en ->
  Forall2 (fun r e => fst r = fst e /\
    Forall2 (fun a c => a_name a = fst c /\ of_type (snd c) (a_type a) /\ (a_null a = false -> snd c <> VNull)) (snd r) (snd e))
    (filter (fun e => name_eqb up r (fst e)) rels) (filter (fun e => name_eqb up r (fst e)) en).
Proof.
  intros H. induction H as [|x e rels en [E Hr] H IH]; [constructor|]. cbn. rewrite E.
  destruct (name_eqb up r (fst e)); [constructor; auto|exact IH].
Qed.

Lemma filter_rel (rels : relations) r n attrs : distinct up (map fst rels) -> In (n, attrs) rels -> name_eqb up r n = true ->
  filter (fun e => name_eqb up r (fst e)) rels = [(n, attrs)].
Proof.
  intros Hd Hin Hr. induction rels as [|[m l] rels IH]; [destruct Hin|]. cbn in *. inversion Hd as [|? ? D1 D2]; subst.
  destruct Hin as [[= -> ->]|Hin].
  - rewrite Hr. f_equal. clear IH Hd D2. induction rels as [|[m l] rels IH]; [reflexivity|]. cbn in *. inversion D1; subst.
    rewrite (name_eqb_congr_l up _ _ m Hr), H1. auto.
  - assert (name_eqb up r m = false) as ->.
    { rewrite Forall_forall in D1. specialize (D1 n).
      rewrite (name_eqb_congr_l up _ _ m Hr), name_eqb_sym. apply D1. apply in_map_iff. exists (n, attrs). auto. }
    auto.
Qed.

Lemma lookup_good strict rels y en q t :
  add_relations up [] rels = Ok y -> conforms rels en ->
  Forall (fun r => distinct up (map a_name (snd r))) rels ->
  name_type up y q = Ok t -> good strict (lookup up en q) t.
Proof.
  intros Hy Hc Hdis Ht. destruct q as [|a [|b [|c q]]]; try discriminate.
  - apply (unqualified up rels y a t Hy) in Ht as (_ & b & Hb & ->). cbn.
    pose proof (conforms_filter rels en a Hc) as H. rewrite Hb in H.
    inversion H as [|? [n v] ? l (E & H1 & H2) H3]; subst. inversion H3; subst. apply good_val.
    split; [constructor; exact H1|]. intros _ d [= _ Hn]. apply H2. exact Hn.
  - apply (qualified up rels y a b t Hy) in Ht as (n & attrs & d & Hin & Ha & Hl & Hb & ->). cbn.
    pose proof (conforms_rel rels en a Hc) as H.
    rewrite (filter_rel rels a n attrs) in H; [|apply add_relations_ok; eauto|exact Hin|exact Ha].
    inversion H as [|? [m cols] ? l (E & H1) H3]; subst. inversion H3; subst. cbn in H1.
    assert (Hd1 : distinct up (map a_name attrs)) by (rewrite Forall_forall in Hdis; apply (Hdis _ Hin)).
    pose proof (filter_named attrs b d Hl Hb Hd1) as Hf.
    assert (K4 : conforms [(n, attrs)] [(m, cols)]) by (constructor; [split; assumption|constructor]).
    apply (conforms_filter _ _ b) in K4. cbn [flat_map snd] in K4. rewrite !app_nil_r in K4. rewrite Hf in K4.
    inversion K4 as [|? [k v] ? l (E' & K1 & K2) K3]; subst. inversion K3; subst. apply good_val.
    split; [constructor; exact K1|]. intros _ d' [= _ Hn]. apply K2. exact Hn.
Qed.

Lemma good_scalar_type rows x y e t : plain rows e = true -> rows = false -> infer up x y e = ok t ->
  (forall q t, name_type up y q = Ok t -> exists d n, t = TyScalar d n) ->
  exists d n, t = TyScalar d n.
Proof.
  intros Hp -> Ht Hq. destruct e; try discriminate; cbn in Ht; inv_ok.
  - subst. destruct l; cbn; eauto.
  - eapply Hq; eauto.
  - destruct op, a as [|[] n]; cbn in Ht; try discriminate; injection Ht as <-; eauto.
  - destruct op, a as [|[] n]; cbn in Ht; try discriminate; destruct a0 as [|[] n']; cbn in Ht; try discriminate; injection Ht as <-; eauto.
  - destruct op; cbn in Ht; try (destruct (is_compatible a a0); [injection Ht as <-; eauto|discriminate]);
      destruct a as [|d n], a0 as [|d' n']; try discriminate;
      try (destruct (dt_eqb d d' && is_ordered d); [injection Ht as <-; eauto|discriminate]).
    all: try (destruct d; discriminate).
    destruct d; try discriminate. destruct d'; try discriminate. injection Ht as <-. eauto.
  - destruct a as [|d n], a0 as [|d' n'], a1 as [|d2 n2]; try discriminate. cbn in Ht.
    destruct (dt_eqb d d' && dt_eqb d d2 && is_ordered d); [injection Ht as <-; eauto|discriminate].
Qed.

Theorem eval_good rows rels x y en e t :
  add_relations up [] rels = Ok y -> conforms rels en ->
  Forall (fun r => distinct up (map a_name (snd r))) rels ->
  plain rows e = true -> infer up x y e = ok t -> good (negb rows) (eval up w en e) t.
Proof.
  intros Hy Hc Hdis. revert t.
  assert (Hscal : forall q t, name_type up y q = Ok t -> exists d n, t = TyScalar d n).
  { intros [|a [|b [|c q]]] t Ht; try discriminate.
    - apply (unqualified up rels y a t Hy) in Ht as (_ & b & Hb & ->). unfold attr_type. eauto.
    - apply (qualified up rels y a b t Hy) in Ht as (n & attrs & d & Hin & Ha & Hl & Hb & ->). unfold attr_type. eauto. }
  induction e as [l|q|es IH|op e IH|op l r IHl IHr|op l r IHl IHr|e lo hi IHe IHlo IHhi|e s|o wh e|s] using plain_induction;
    intros t Hp Ht; try discriminate; cbn [infer] in Ht; inv_ok; cbn [eval].
  - subst. apply good_val. destruct l; cbn; try (apply fits_data; discriminate). apply fits_null.
  - eapply lookup_good; eauto.
  - subst. cbn in Hp. apply andb_true_iff in Hp as [Hr Hp]. subst rows. cbn [negb].
    assert (H : (exists vs, eval_list (eval up w en) es = Val (VRow vs) /\ Forall2 of_stype vs a) \/
                eval_list (eval up w en) es = Arithmetic).
    { revert a E Hp. induction IH as [|e es He Hes IH]; intros a E Hp.
      - cbn in E. apply ok_inj in E. subst a. left. exists []. auto.
      - cbn in E. inv_ok. subst a. cbn in Hp. apply andb_true_iff in Hp as [Hp1 Hp2]. cbn.
        destruct (He _ Hp1 E0) as [(v & -> & Hv & _)| ->]; [|right; reflexivity]. cbn.
        edestruct IH as [(vs & -> & Hvs)| ->]; [eassumption|exact Hp2| |right; reflexivity]. cbn.
        left. exists (v :: vs). split; [reflexivity|]. constructor; assumption. }
    destruct H as [(vs & -> & H)| ->]; [|right; reflexivity]. apply good_val. split; [|discriminate].
    apply of_stype_tuple. eauto.
  - destruct op; [| |discriminate]; cbn in Hp.
    all: destruct (IH _ Hp E) as [(v & -> & Hv)| ->]; [|right; reflexivity]; cbn [and_then];
      eapply eval_unary_good; [discriminate|exact Hv|exact Ht].
  - cbn in Hp. apply andb_true_iff in Hp as [Hp1 Hp2].
    destruct (IHl _ Hp1 E) as [(v1 & -> & Hv1)| ->]; [|right; reflexivity]. cbn [and_then].
    destruct (IHr _ Hp2 E0) as [(v2 & -> & Hv2)| ->]; [|right; reflexivity]. cbn [and_then].
    eapply eval_binary_good; eassumption.
  - cbn in Hp. apply andb_true_iff in Hp as [Hp1 Hp2].
    destruct (IHl _ Hp1 E) as [(v1 & -> & Hv1)| ->]; [|right; reflexivity]. cbn [and_then].
    destruct (IHr _ Hp2 E0) as [(v2 & -> & Hv2)| ->]; [|right; reflexivity]. cbn [and_then].
    eapply eval_compare_good; [|exact Hv1|exact Hv2|exact Ht].
    intros Hr. assert (rows = false) by (destruct rows; [discriminate|reflexivity]).
    split; [eapply (good_scalar_type rows x y l)|eapply (good_scalar_type rows x y r)]; assumption.
  - cbn in Hp. apply andb_true_iff in Hp as [Hp Hp3]. apply andb_true_iff in Hp as [Hp1 Hp2].
    destruct (IHe _ Hp1 E) as [(v1 & -> & Hv1)| ->]; [|right; reflexivity]. cbn [and_then].
    destruct (IHlo _ Hp2 E0) as [(v2 & -> & Hv2)| ->]; [|right; reflexivity]. cbn [and_then].
    destruct (IHhi _ Hp3 E1) as [(v3 & -> & Hv3)| ->]; [|right; reflexivity]. cbn [and_then].
    eapply eval_between_good; [exact Hv1|exact Hv2|exact Hv3|exact Ht].
Qed.

End Eval.
