(** * The fields of a layout are the elements of its type *)

From Coq Require Import Permutation Sorted ZifyBool ZifyNat ZifyN.
From Verif Require Import Base BaseFacts UtilModel UtilSpec UtilProofs StrModel TypesModel TypesSpec TypesProofs.
From Verif Require Import MarshalModel MarshalSpec ListFacts LayoutProofs FieldProofs LayoutTotal PresentsFacts MarshalProofs MarshalMore MarshalLimits.

Definition kind_of (u : ty) : option fk :=
  match u with
  | TPrim p => Some (KPrim p) | TString => Some KStr | TEnum cs => Some (KTag cs) | _ => None
  end.

Lemma flat_members_split {A B} (f : A -> path -> list B) l q : forall k x,
  In x (flat_members f l q k) <-> exists i a, nth_error l i = Some a /\ In x (f a (q ++ [k + i])).
Proof.
  induction l as [|a l IH]; intros k x; cbn [flat_members].
  - split; [intros []|]. intros (i & a & H & _). destruct i; discriminate.
  - rewrite in_app_iff, IH. split.
    + intros [H|(i & b & Hb & H)]; [exists 0, a; rewrite Nat.add_0_r; auto|]. exists (S i), b.
      rewrite <- Nat.add_succ_comm. auto.
    + intros (i & b & Hb & H). destruct i as [|i]; [left; injection Hb as <-; rewrite Nat.add_0_r in H; exact H|].
      right. exists i, b. rewrite Nat.add_succ_comm. auto.
Qed.

Lemma flat_reaches t : forall q e k, In (e, k) (flat t q) <-> exists r u, e = q ++ r /\ reaches t r u /\ kind_of u = Some k.
Proof.
  induction t using ty_ind'; intros q e kk; cbn [flat].
  - split; [intros []|]. intros (r & u & _ & Hr & Hk). inversion Hr; subst. discriminate.
  - split.
    + intros [E|[]]. injection E as <- <-. exists [], (TPrim p). rewrite app_nil_r. repeat split. constructor.
    + intros (r & u & -> & Hr & Hk). inversion Hr; subst. injection Hk as <-. left. rewrite app_nil_r. reflexivity.
  - split.
    + intros [E|[]]. injection E as <- <-. exists [], TString. rewrite app_nil_r. repeat split. constructor.
    + intros (r & u & -> & Hr & Hk). inversion Hr; subst. injection Hk as <-. left. rewrite app_nil_r. reflexivity.
  - rewrite flat_members_split. rewrite Forall_forall in H. split.
    + intros (i & t & Ht & Hin). apply H in Hin as (r & u & -> & Hr & Hk); [|eapply nth_error_In; exact Ht].
      exists (i :: r), u. rewrite <- app_assoc. repeat split; [|exact Hk]. eapply re_tuple; eassumption.
    + intros (r & u & -> & Hr & Hk). inversion Hr as [|? i t r' ? Ht Hr'|]; subst; [discriminate|].
      exists i, t. split; [exact Ht|]. apply H; [eapply nth_error_In; exact Ht|].
      exists r', u. rewrite <- app_assoc. auto.
  - rewrite flat_members_split. rewrite Forall_forall in H. split.
    + intros (i & t & Ht & Hin). apply H in Hin as (r & u & -> & Hr & Hk); [|eapply nth_error_In; exact Ht].
      exists (i :: r), u. rewrite <- app_assoc. repeat split; [|exact Hk]. eapply re_struct; eassumption.
    + intros (r & u & -> & Hr & Hk). inversion Hr as [| |? i t r' ? Ht Hr']; subst; [discriminate|].
      exists i, t. split; [exact Ht|]. apply H; [eapply nth_error_In; exact Ht|].
      exists r', u. rewrite <- app_assoc. auto.
  - split.
    + intros [E|[]]. injection E as <- <-. exists [], (TEnum cs). rewrite app_nil_r. repeat split. constructor.
    + intros (r & u & -> & Hr & Hk). inversion Hr; subst. injection Hk as <-. left. rewrite app_nil_r. reflexivity.
Qed.

Lemma tag_bits_least cs : 0 < length cs -> (Z.of_nat (length cs) < 2 ^ 64)%Z -> field_for (TEnum cs) (FBit PU8 0 (tag_bits cs)).
Proof.
  intros Hl Hs. cbn [field_for]. destruct (required_bits_spec (Z.of_nat (length cs - 1))) as (B1 & B2 & B3); [lia|].
  unfold tag_bits. rewrite Z2Nat.id by lia. split; [lia|]. intros m Hm. 
  assert (Hlt : (Z.of_nat (length cs - 1) < 2 ^ Z.of_nat m)%Z) by (clear B2 B3; lia).
  specialize (B3 (Z.of_nat m) ltac:(lia) Hlt). lia.
Qed.

Lemma kind_rel_field_for u k f : kind_of u = Some k -> kind_rel k f -> 
  (forall cs, u = TEnum cs -> 0 < length cs /\ (Z.of_nat (length cs) < 2 ^ 64)%Z) -> field_for u f.
Proof.
  intros Hk Hr Hne. destruct u; try discriminate; injection Hk as <-; destruct f; cbn [kind_rel] in Hr; try (destruct Hr; fail);
    cbn [field_for]; try exact I; try exact Hr.
  subst. apply tag_bits_least; eapply Hne; reflexivity.
Qed.

Lemma inhabited_reaches t r u : inhabited_type t -> reaches t r u -> inhabited_type u.
Proof.
  intros Hi Hr. induction Hr as [|ts k t r u Hn Hr IH|fs k f r u Hn Hr IH]; [exact Hi| |]; apply IH.
  - inversion Hi as [| | |? _ HF| |]; subst. rewrite Forall_forall in HF. apply HF. eapply nth_error_In. exact Hn.
  - inversion Hi as [| | | |? _ HF|]; subst. rewrite Forall_forall in HF. apply (HF f). eapply nth_error_In. exact Hn.
Qed.

Lemma layout_fields t q l : small t -> calculate_layout t q = Ret l ->
  NoDup (map f_path (l_fixed l)) /\
  (forall f, In f (l_fixed l) -> exists r u, f_path f = q ++ r /\ reaches t r u /\ field_for u (f_kind f)) /\
  (forall r u, reaches t r u -> is_element u -> exists f, In f (l_fixed l) /\ f_path f = q ++ r /\ field_for u (f_kind f)).
Proof.
  intros Hs Hc. pose proof (calculate_layout_ok _ _ _ Hc) as Hl. pose proof (layout_inhabited _ _ _ Hc) as Hi.
  assert (Hen : forall r u cs, reaches t r u -> u = TEnum cs -> 0 < length cs /\ (Z.of_nat (length cs) < 2 ^ 64)%Z).
  { intros r u cs Hr ->. assert (Hin : In (q ++ r, KTag cs) (flat t q)).
    { apply flat_reaches. exists r, (TEnum cs). auto. }
    pose proof (flat_tag_cases _ _ _ _ Hin). unfold small in Hs. pose proof (inhabited_reaches _ _ _ Hi Hr) as Hu. inversion Hu as [| | | | |? Hne _]; subst.
    destruct cs; [congruence|cbn in *; lia]. }
  split; [|split].
  - eapply Permutation_NoDup; [symmetry; exact (lo_paths _ _ Hl)|apply flat_nodup].
  - intros f Hf. pose proof (lo_kinds _ _ Hl) as Hk. rewrite Forall_forall in Hk. destruct (Hk _ Hf) as (k & Hin & Hr).
    apply flat_reaches in Hin as (r & u & E & Hre & Hko). exists r, u. split; [exact E|]. split; [exact Hre|].
    eapply kind_rel_field_for; [exact Hko|exact Hr|intros; eapply Hen; eassumption].
  - intros r u Hre Hel. assert (exists k, kind_of u = Some k) as [k Hko] by (destruct u; try destruct Hel; eexists; reflexivity).
    assert (Hin : In (q ++ r, k) (flat t q)) by (apply flat_reaches; eauto).
    destruct (index_entry t q l Hc _ _ Hin) as (j & x & f & _ & _ & _ & _ & Hf & Ef & Hr).
    exists f. split; [exact Hf|]. split; [exact Ef|].
    eapply kind_rel_field_for; [exact Hko|exact Hr|intros; eapply Hen; eassumption].
Qed.

(** Each string and each enum has one variable part; the payload layouts of an enum are those of its cases. *)
Lemma layout_vars t q l : calculate_layout t q = Ret l ->
  NoDup (map v_path (l_vars l)) /\
  (forall v, In v (l_vars l) -> exists r, v_path v = q ++ r /\
     ((reaches t r TString /\ v_kind v = VString) \/
      exists cs ls, reaches t r (TEnum cs) /\ v_kind v = VEnum ls /\ length ls = length cs /\
        forall k c, nth_error ls k = Some c -> exists lb u, nth_error cs k = Some (lb, u) /\
                    calculate_layout u (v_path v ++ [k]) = Ret c)) /\
  (forall r u, reaches t r u -> (u = TString \/ exists cs, u = TEnum cs) -> In (q ++ r) (map v_path (l_vars l))).
Proof.
  intros Hc. pose proof (calculate_layout_ok _ _ _ Hc) as Hl. destruct (lo_vars _ _ Hl) as (fv & Hp & HF).
  assert (Em : map v_path (l_vars l) = map fst fv).
  { clear - HF. induction HF as [|e v fv vs [E _] HF IH]; [reflexivity|]. cbn [map]. rewrite E, IH. reflexivity. }
  split; [|split].
  - rewrite Em. eapply Permutation_NoDup; [symmetry; apply Permutation_map; exact Hp|].
    apply NoDup_map_filter. apply flat_nodup.
  - intros v Hv. destruct (var_flat t q l Hc v Hv) as (k & Hin & Hiv & [_ Hr]). cbn [fst snd] in Hr.
    apply flat_reaches in Hin as (r & u & E & Hre & Hko). exists r. split; [exact E|].
    destruct u as [| | | | |cs]; try discriminate; injection Hko as <-; [destruct Hr|left; auto|].
    right. destruct Hr as (ls & Hk & _ & Hls). exists cs, ls. split; [exact Hre|]. split; [exact Hk|].
    split; [eapply members_length; exact Hls|]. intros k c Hkc. destruct (members_nth _ _ _ _ _ _ _ Hls Hkc) as ([lb u] & H1 & H2).
    exists lb, u. auto.
  - intros r u Hre Hu. rewrite Em. assert (exists k, kind_of u = Some k /\ forall e, is_var (e, k) = true) as (k & Hko & Hiv).
    { destruct Hu as [->|[cs ->]]; eexists; split; reflexivity. }
    apply in_map_iff. exists (q ++ r, k). split; [reflexivity|]. eapply Permutation_in; [symmetry; exact Hp|].
    apply filter_In. split; [apply flat_reaches; eauto|apply Hiv].
Qed.

Lemma layout_index t q l : calculate_layout t q = Ret l ->
  StronglySorted (fun x y => path_cmp (i_path x) (i_path y) = Gt) (l_indices l) /\
  (forall x, In x (l_indices l) -> exists f, nth_error (l_fixed l) (i_fixed x) = Some f /\ f_path f = i_path x) /\
  (forall f, In f (l_fixed l) -> exists x, In x (l_indices l) /\ i_path x = f_path f) /\
  (forall k v, nth_error (l_vars l) k = Some v -> exists x, In x (l_indices l) /\ i_path x = v_path v /\ i_var x = k).
Proof.
  intros Hc. pose proof (calculate_layout_ok _ _ _ Hc) as Hl. split; [exact (lo_desc _ _ Hl)|]. split; [|split].
  - pose proof (lo_ixf _ _ Hl) as H. rewrite Forall_forall in H. exact H.
  - intros f Hf. pose proof (lo_ixp _ _ Hl) as Hp. apply (in_map f_path) in Hf. apply (Permutation_in _ (Permutation_sym Hp)) in Hf.
    apply in_map_iff in Hf as (x & E & Hx). eauto.
  - exact (lo_ixv _ _ Hl).
Qed.

Lemma layout_iff t : small t -> ((exists l, layout_new t = Ret l) <-> inhabited_type t).
Proof.
  intros Hs. split; [intros [l H]; eapply layout_inhabited; exact H|intros Hi; apply layout_total; assumption].
Qed.

Lemma fields_aligned t q l f base : calculate_layout t q = Ret l -> In f (l_fixed l) ->
  Nat.divide (l_align l) base -> Nat.divide (field_size f) (base + f_offset f).
Proof.
  intros Hc Hf Hb. apply Nat.divide_add_r.
  - eapply Nat.divide_trans; [eapply field_divides_align; eassumption|exact Hb].
  - pose proof (lo_place _ _ (calculate_layout_ok _ _ _ Hc)) as Hp. rewrite Forall_forall in Hp. apply (Hp _ Hf).
Qed.
