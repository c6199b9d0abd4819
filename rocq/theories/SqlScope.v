(** * How column names are resolved *)

From Verif Require Import Base SqlNameModel SqlModel SqlNameProofs SqlSpec.

Section Scope.
Context (up : Z -> list Z).
Notation same := (name_eqb up).
Notation nget := (nget up).
Notation named := (named up).

(** The symbol of a name after some attributes with that name have been entered. *)
Definition enter (o : option symbol) (l : list attribute) : option symbol :=
  match o, l with
  | _, [] => o
  | Some (SyRelation m), _ => o
  | Some SyConflict, _ => o
  | Some (SyAttribute _), _ => Some SyConflict
  | None, [a] => Some (SyAttribute (attr_type a))
  | None, _ => Some SyConflict
  end.

Lemma enter_cons o a l :
  enter o (a :: l) = enter (match o with
                            | None => Some (SyAttribute (attr_type a))
                            | Some (SyAttribute _) => Some SyConflict
                            | Some s => Some s
                            end) l.
Proof. destruct o as [[]|], l; reflexivity. Qed.

Lemma enter_app o l1 l2 : enter o (l1 ++ l2) = enter (enter o l1) l2.
Proof.
  revert o; induction l1 as [|a l1 IH]; intros o; cbn [app].
  - destruct o as [[]|]; reflexivity.
  - rewrite !enter_cons. apply IH.
Qed.

Lemma add_attribute_sorted y a : sorted up y -> sorted up (add_attribute up y a).
Proof.
  intros Hs. unfold add_attribute. destruct (nget y (a_name a)) as [[]|]; try apply nput_sorted; exact Hs.
Qed.

Lemma add_attribute_get y a k : sorted up y ->
  nget (add_attribute up y a) k = enter (nget y k) (if same k (a_name a) then [a] else []).
Proof.
  intros Hs. unfold add_attribute.
  destruct (same k (a_name a)) eqn:E.
  - rewrite <- (nget_congr up y _ _ E).
    destruct (nget y k) as [[]|] eqn:G; cbn; rewrite ?nget_nput by exact Hs; rewrite ?E, ?G; reflexivity.
  - replace (enter (nget y k) []) with (nget y k) by (destruct (nget y k) as [[]|]; reflexivity).
    destruct (nget y (a_name a)) as [[]|]; rewrite ?nget_nput by exact Hs; rewrite ?E; reflexivity.
Qed.

Lemma add_attributes_get attrs y : sorted up y ->
  sorted up (fold_left (add_attribute up) attrs y) /\
  forall k, nget (fold_left (add_attribute up) attrs y) k = enter (nget y k) (named k attrs).
Proof.
  revert y; induction attrs as [|a attrs IH]; intros y Hs; cbn.
  - split; [exact Hs|]. intros k. destruct (nget y k) as [[]|]; reflexivity.
  - destruct (IH _ (add_attribute_sorted y a Hs)) as [H1 H2]. split; [exact H1|]. intros k. rewrite H2.
    rewrite (add_attribute_get y a k Hs). unfold SqlSpec.named. cbn. destruct (same k (a_name a)).
    + symmetry. apply (enter_app _ [a]).
    + destruct (nget y k) as [[]|]; reflexivity.
Qed.

(** The attributes of a relation in scope. *)
Definition find_rel (rels : relations) (k : name) : option (list attribute) :=
  match find (fun r => same k (fst r)) rels with Some r => Some (snd r) | None => None end.

Definition rel_map (attrs : list attribute) : nmap stype := ncollect up (map (fun a => (a_name a, attr_type a)) attrs).

(** What the symbols hold after the relations [rels] have been entered. *)
Definition holds (rels : relations) (y : symbols) : Prop :=
  sorted up y /\
  forall k, nget y k = match find_rel rels k with
                       | Some attrs => Some (SyRelation (rel_map attrs))
                       | None => enter None (named k (flat_map snd rels))
                       end.

Lemma find_rel_snoc rels n attrs k :
  find_rel (rels ++ [(n, attrs)]) k =
  match find_rel rels k with Some l => Some l | None => if same k n then Some attrs else None end.
Proof.
  unfold find_rel. induction rels as [|r rels IH]; cbn.
  - destruct (same k n); reflexivity.
  - destruct (same k (fst r)); [reflexivity|exact IH].
Qed.

Lemma find_rel_none rels k : find_rel rels k = None <-> Forall (fun m => same k m = false) (map fst rels).
Proof.
  unfold find_rel. induction rels as [|r rels IH]; cbn; [split; auto|].
  destruct (same k (fst r)) eqn:E.
  - split; [discriminate|]. intros H. inversion H; subst. congruence.
  - rewrite IH. split; [constructor; assumption|]. intros H. inversion H; subst. assumption.
Qed.

Lemma enter_none_cases l : enter None l = None \/ (exists t, enter None l = Some (SyAttribute t)) \/ enter None l = Some SyConflict.
Proof. destruct l as [|a [|b l]]; cbn; eauto. Qed.

Lemma add_relation_holds rels y n attrs : holds rels y ->
  match add_relation up y n attrs with
  | Ok y' => find_rel rels n = None /\ holds (rels ++ [(n, attrs)]) y'
  | Err _ => find_rel rels n <> None
  end.
Proof.
  intros [Hs Hg]. unfold add_relation.
  destruct (add_attributes_get attrs y Hs) as [Hs1 Hg1]. fold (rel_map attrs).
  set (y1 := fold_left (add_attribute up) attrs y) in *. clearbody y1.
  assert (Hrel : find_rel rels n = None ->
                 holds (rels ++ [(n, attrs)]) (nput up y1 n (SyRelation (rel_map attrs)))).
  { intros Hn. split; [apply nput_sorted; exact Hs1|]. intros k. rewrite nget_nput by exact Hs1.
    rewrite find_rel_snoc. destruct (same k n) eqn:E.
    - replace (find_rel rels k) with (@None (list attribute)); [reflexivity|].
      symmetry. apply find_rel_none. apply find_rel_none in Hn. revert Hn. apply Forall_impl. intros m Hm.
      rewrite (name_eqb_congr_l up _ _ m E). exact Hm.
    - rewrite Hg1, Hg. rewrite flat_map_app. cbn [flat_map snd]. rewrite app_nil_r.
      destruct (find_rel rels k) eqn:F; [cbn; destruct (named k attrs); reflexivity|].
      unfold SqlSpec.named. rewrite filter_app, enter_app. reflexivity. }
  rewrite Hg1, Hg. destruct (find_rel rels n) eqn:F.
  - cbn. destruct (named n attrs); congruence.
  - destruct (enter_none_cases (named n (flat_map snd rels))) as [E|[[t E]|E]]; rewrite E.
    + destruct (enter_none_cases (named n attrs)) as [E'|[[t E']|E']]; rewrite E'; auto.
    + cbn. destruct (named n attrs); auto.
    + cbn. destruct (named n attrs); auto.
Qed.

Lemma add_relations_holds rels rels0 y : holds rels0 y ->
  match add_relations up y rels with
  | Ok y' => holds (rels0 ++ rels) y' /\
             ForallOrdPairs (fun a b => same a b = false) (map fst rels) /\
             Forall (fun n => find_rel rels0 n = None) (map fst rels)
  | Err _ => ~ (ForallOrdPairs (fun a b => same a b = false) (map fst rels) /\
                Forall (fun n => find_rel rels0 n = None) (map fst rels))
  end.
Proof.
  revert rels0 y; induction rels as [|[n attrs] rels IH]; intros rels0 y Hy; cbn [add_relations map fst].
  - rewrite app_nil_r. split; [exact Hy|]. split; constructor.
  - pose proof (add_relation_holds rels0 y n attrs Hy) as H. destruct (add_relation up y n attrs) as [y1|e].
    + destruct H as [Hn H]. specialize (IH _ _ H). destruct (add_relations up y1 rels) as [y2|e].
      * destruct IH as (I1 & I2 & I3). rewrite <- app_assoc in I1. split; [exact I1|].
        assert (I4 : Forall (fun m => find_rel rels0 m = None /\ same n m = false) (map fst rels)).
        { revert I3. apply Forall_impl. intros m Hm. rewrite find_rel_snoc in Hm.
          destruct (find_rel rels0 m); [discriminate|]. split; [reflexivity|]. rewrite name_eqb_sym.
          destruct (same m n); [discriminate|reflexivity]. }
        split; constructor; try assumption; revert I4; apply Forall_impl; tauto.
      * intros [D1 D2]. apply IH. inversion D1; subst. inversion D2; subst. split; [assumption|].
        apply Forall_forall. intros m Hm. rewrite find_rel_snoc.
        rewrite Forall_forall in *. match goal with H : forall x, In x _ -> find_rel rels0 x = None |- _ => rewrite (H _ Hm) end.
        match goal with H : forall x, In x _ -> same n x = false |- _ => specialize (H _ Hm) end.
        rewrite name_eqb_sym. match goal with H : same n m = false |- _ => rewrite H end. reflexivity.
    + intros [D1 D2]. inversion D2; subst. contradiction.
Qed.

Lemma holds_nil : holds [] [].
Proof. split; [constructor|]. reflexivity. Qed.

(** The scope of a FROM clause exists exactly when the relation names are different. *)
Lemma add_relations_ok rels : (exists y, add_relations up [] rels = Ok y) <-> distinct up (map fst rels).
Proof.
  pose proof (add_relations_holds rels [] [] holds_nil) as H.
  assert (F : Forall (fun n => find_rel [] n = None) (map fst rels)) by (apply Forall_forall; reflexivity).
  destruct (add_relations up [] rels) as [y|e].
  - destruct H as (_ & H & _). split; [intros _; exact H|eauto].
  - split; [intros [y E]; discriminate|]. intros D. exfalso. apply H. auto.
Qed.

Lemma unqualified rels y a t : add_relations up [] rels = Ok y ->
  (name_type up y [a] = Ok t <->
   Forall (fun r => same a (fst r) = false) rels /\
   exists b, named a (flat_map snd rels) = [b] /\ t = attr_type b).
Proof.
  intros E. pose proof (add_relations_holds rels [] [] holds_nil) as H. rewrite E in H. destruct H as ([_ Hg] & _ & _).
  cbn [app] in Hg. unfold name_type. rewrite Hg.
  assert (Hr : Forall (fun r => same a (fst r) = false) rels <-> find_rel rels a = None).
  { rewrite find_rel_none, Forall_map. reflexivity. }
  rewrite Hr. destruct (find_rel rels a) eqn:F.
  - split; [discriminate|]. intros [? _]. discriminate.
  - destruct (named a (flat_map snd rels)) as [|b [|c l]] eqn:N; cbn.
    + split; [discriminate|]. intros [_ (b & ? & _)]. discriminate.
    + split; [intros [= <-]; eauto|]. intros [_ (b' & [= <-] & ->)]. reflexivity.
    + split; [discriminate|]. intros [_ (b' & ? & _)]. discriminate.
Qed.

Lemma last_entry_named {V} (f : attribute -> V) attrs k v :
  last_entry up (map (fun a => (a_name a, f a)) attrs) k = Some v <->
  exists a, last_named up attrs a /\ same k (a_name a) = true /\ v = f a.
Proof.
  assert (Hn : forall l k, last_entry up (map (fun a => (a_name a, f a)) l) k = None <->
                         Forall (fun b => same k (a_name b) = false) l).
  { induction l as [|a l IH]; intros k0; cbn; [split; auto|].
    destruct (last_entry up _ k0) eqn:E.
    - split; [discriminate|]. intros H. inversion H; subst. apply IH in H3. congruence.
    - apply IH in E. destruct (same k0 (a_name a)) eqn:S.
      + split; [discriminate|]. intros H. inversion H; subst. congruence.
      + split; auto. }
  induction attrs as [|a attrs IH]; cbn.
  - split; [discriminate|]. intros (a & (l1 & l2 & E & _) & _). destruct l1; discriminate.
  - destruct (last_entry up _ k) eqn:E.
    + rewrite IH. split.
      * intros (b & (l1 & l2 & -> & H) & Hk). exists b. split; [|exact Hk]. exists (a :: l1), l2. auto.
      * intros (b & (l1 & l2 & El & H) & Hk). destruct l1 as [|c l1]; injection El as -> ->.
        -- exfalso. assert (last_entry up (map (fun a => (a_name a, f a)) l2) k = None); [|congruence].
           apply Hn. revert H. apply Forall_impl. intros c Hc. rewrite (name_eqb_congr_l up _ _ _ (proj1 Hk)). exact Hc.
        -- exists b. split; [exists l1, l2; auto|exact Hk].
    + apply Hn in E. destruct (same k (a_name a)) eqn:S.
      * split.
        -- intros [= <-]. exists a. split; [|auto]. exists [], attrs. split; [reflexivity|].
           revert E. apply Forall_impl. intros c Hc. rewrite <- (name_eqb_congr_l up _ _ _ S). exact Hc.
        -- intros (b & (l1 & l2 & El & H) & Hk & ->). destruct l1 as [|c l1]; injection El as -> ->; [reflexivity|].
           exfalso. rewrite Forall_forall in E. rewrite (E b) in Hk; [discriminate|]. apply in_or_app. cbn. auto.
      * split; [discriminate|]. intros (b & (l1 & l2 & El & H) & Hk & ->).
        destruct l1 as [|c l1]; injection El as -> ->; [congruence|].
        exfalso. rewrite Forall_forall in E. rewrite (E b) in Hk; [discriminate|]. apply in_or_app. cbn. auto.
Qed.

Lemma find_rel_in rels k attrs : distinct up (map fst rels) ->
  (find_rel rels k = Some attrs <-> exists n, In (n, attrs) rels /\ same k n = true).
Proof.
  intros Hd. unfold find_rel. induction rels as [|[n l] rels IH]; cbn.
  - split; [discriminate|]. intros (n & [] & _).
  - inversion Hd as [|? ? H1 H2]; subst. destruct (same k n) eqn:E.
    + split; [intros [= <-]; eauto|]. intros (m & [[= <- <-]|Hin] & Hk); [reflexivity|].
      exfalso. rewrite Forall_forall in H1. specialize (H1 m).
      rewrite <- (name_eqb_congr_l up _ _ m E) in H1. rewrite H1 in Hk; [discriminate|].
      apply in_map_iff. exists (m, attrs). auto.
    + rewrite IH by exact H2. split.
      * intros (m & Hin & Hk). eauto.
      * intros (m & [[= <- <-]|Hin] & Hk); [congruence|eauto].
Qed.

Lemma qualified rels y r a t : add_relations up [] rels = Ok y ->
  (name_type up y [r; a] = Ok t <->
   exists n attrs b, In (n, attrs) rels /\ same r n = true /\
                     last_named up attrs b /\ same a (a_name b) = true /\ t = attr_type b).
Proof.
  intros E. pose proof (add_relations_holds rels [] [] holds_nil) as H. rewrite E in H. destruct H as ([_ Hg] & Hd & _).
  cbn [app] in Hg. unfold name_type. rewrite Hg.
  destruct (find_rel rels r) as [attrs|] eqn:F.
  - unfold rel_map. rewrite nget_ncollect.
    split.
    + destruct (last_entry up _ a) eqn:L; [|discriminate]. intros [= ->].
      apply last_entry_named in L as (b & H1 & H2 & H3). apply find_rel_in in F as (n & Hin & Hk); [|exact Hd]. eauto 10.
    + intros (n & attrs' & b & Hin & Hk & Hl & Ha & ->).
      assert (attrs' = attrs) as ->.
      { assert (find_rel rels r = Some attrs') by (apply find_rel_in; eauto). congruence. }
      assert (last_entry up (map (fun a => (a_name a, attr_type a)) attrs) a = Some (attr_type b)) as ->; [|reflexivity].
      apply last_entry_named. eauto.
  - split.
    + destruct (enter_none_cases (named r (flat_map snd rels))) as [E'|[[? E']|E']]; rewrite E'; discriminate.
    + intros (n & attrs' & b & Hin & Hk & _).
      assert (find_rel rels r = Some attrs') by (apply find_rel_in; eauto). congruence.
Qed.

End Scope.
