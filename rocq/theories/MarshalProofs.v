(** * Encoding a record and reading it back *)

From Coq Require Import Permutation ZifyBool ZifyNat ZifyN.
From Verif Require Import Base BaseFacts UtilModel UtilSpec UtilProofs StrModel TypesModel TypesSpec TypesProofs.
From Verif Require Import MarshalModel MarshalSpec ListFacts LayoutProofs FieldProofs LayoutTotal PresentsFacts.

Definition agree_upto (n : nat) (a b : list byte) : Prop := forall i, i < n -> nth_error a i = nth_error b i.

(** Encoding with the layout [l] into a buffer that is long enough succeeds with the predicted size, changes
    only that many bytes, and makes [Q] true of all data with these bytes. *)
Definition enc_spec (pf : profile) (src : source) (l : layout) (Q : list byte -> nat -> Prop) : Prop :=
  forall n, encoding_size_with_source src l = Ret n ->
  forall buf, n <= length buf ->
  exists buf', encode_with_source pf src l buf = Ret (buf', n) /\ length buf' = length buf /\
    (forall i, n <= i -> nth_error buf' i = nth_error buf i) /\
    (forall data, n <= length data -> agree_upto n data buf' -> Q data n).

Section Vars.
Context (pf : profile) (src : source) (Q : vfield layout -> nat -> layout -> list byte -> nat -> Prop).

Definition vgood (v : vfield layout) : Prop :=
  match v_kind v with
  | VString => exists bs, src_len src (v_path v) = Ret (length bs) /\ src_bytes src (v_path v) = Ret bs
  | VEnum cases => exists k c, src_tag src (v_path v) = Ret k /\ nth_error cases k = Some c /\ enc_spec pf src c (Q v k c)
  end.

Inductive stored (data : list byte) : list (vfield layout) -> nat -> nat -> Prop :=
| st_nil off : stored data [] off off
| st_str v vs off off' bs :
    v_kind v = VString -> src_len src (v_path v) = Ret (length bs) -> src_bytes src (v_path v) = Ret bs ->
    off + length bs <= length data -> slice data off (length bs) = bs ->
    stored data vs (off + length bs) off' -> stored data (v :: vs) off off'
| st_enum v vs off off' cases k c n :
    v_kind v = VEnum cases -> src_tag src (v_path v) = Ret k -> nth_error cases k = Some c ->
    off + n <= length data -> Q v k c (skipn off data) n ->
    stored data vs (off + n) off' -> stored data (v :: vs) off off'.

Lemma size_loop_ge size vs : forall off off', size_loop src size vs off = Ret off' -> off <= off'.
Proof.
  clear pf Q. induction vs as [|v vs IH]; intros off off' H; cbn [size_loop] in H.
  - injection H as <-. lia.
  - destruct (v_kind v) as [|cases].
    + inv_bind H. apply IH in H. lia.
    + inv_bind H. inv_bind H. apply IH in H. lia.
Qed.

Lemma encode_vars_ok vs : Forall vgood vs -> forall off off' buf,
  size_loop src (encoding_size_with_source src) vs off = Ret off' -> off' <= length buf ->
  exists buf', encode_vars src (encode_with_source pf src) vs buf off = Ret (buf', off') /\ length buf' = length buf /\
    (forall i, i < off \/ off' <= i -> nth_error buf' i = nth_error buf i) /\
    (forall data, off' <= length data -> agree_upto off' data buf' -> stored data vs off off').
Proof.
  induction 1 as [|v vs Hv Hvs IH]; intros off off' buf Hsz Hlen; cbn [size_loop] in Hsz; cbn [encode_vars].
  - injection Hsz as <-. exists buf. repeat split; auto. intros. constructor.
  - unfold vgood in Hv. destruct (v_kind v) as [|cases] eqn:Ek.
    + destruct Hv as (bs & H1 & H2). rewrite H1 in *. cbn [bind] in *. pose proof (size_loop_ge _ _ _ _ Hsz) as Hge.
      destruct (Nat.leb_spec off (length buf)); [|lia]. cbn [bind]. rewrite H2. cbn [bind]. rewrite Nat.eqb_refl. cbn [bind].
      rewrite raw_write_ok by lia. cbn [bind].
      destruct (IH _ _ (write buf off bs) Hsz) as (buf' & E & L & K & S); [rewrite write_length; lia|].
      rewrite write_length in L by lia.
      exists buf'. split; [exact E|]. split; [exact L|]. split.
      * intros i Hi. rewrite K by lia. rewrite nth_error_write by lia.
        replace ((off <=? i) && (i <? off + length bs)) with false by lia. reflexivity.
      * intros data Hd Hag. apply st_str with (bs := bs); [exact Ek|exact H1|exact H2|lia| |apply S; assumption].
        transitivity (slice (write buf off bs) off (length bs)); [|apply slice_write_same; lia].
        apply slice_ext. intros i Hi. rewrite Hag by lia. apply K. lia.
    + destruct Hv as (k & c & H1 & H2 & H3). rewrite H1 in *. cbn [bind] in *. rewrite pick_nth, H2 in Hsz.
      inv_bind Hsz. rename a into n. pose proof (size_loop_ge _ _ _ _ Hsz) as Hge.
      unfold index_from. destruct (Nat.leb_spec off (length buf)); [|lia]. cbn [bind]. rewrite !pick_nth, H2.
      destruct (H3 n Ha (skipn off buf)) as (sub & E1 & L1 & K1 & S1); [rewrite skipn_length; lia|].
      rewrite E1. cbn [bind]. rewrite Ha. cbn [bind]. rewrite skipn_length in L1.
      assert (Lb : length (firstn off buf ++ sub) = length buf) by (rewrite app_length, firstn_length; lia).
      destruct (IH _ _ (firstn off buf ++ sub) Hsz) as (buf' & E & L & K & S); [lia|].
      exists buf'. split; [exact E|]. split; [lia|]. split.
      * intros i Hi. rewrite K by lia. destruct (Nat.lt_ge_cases i off) as [Hlt|Hnlt].
        -- rewrite nth_error_app1 by (rewrite firstn_length; lia). rewrite nth_error_firstn.
           destruct (Nat.ltb_spec i off); [reflexivity|lia].
        -- rewrite nth_error_app2 by (rewrite firstn_length; lia). rewrite firstn_length, Nat.min_l by lia.
           rewrite K1 by lia. rewrite nth_error_skipn. f_equal. lia.
      * intros data Hd Hag. apply st_enum with (cases := cases) (k := k) (c := c) (n := n);
          [exact Ek|exact H1|exact H2|lia| |apply S; assumption].
        apply S1; [rewrite skipn_length; lia|]. intros i Hi. rewrite nth_error_skipn, Hag by lia.
        rewrite K by lia. rewrite nth_error_app2 by (rewrite firstn_length; lia). rewrite firstn_length, Nat.min_l by lia.
        f_equal. lia.
Qed.

(** ** Offsets recomputed from the stored bytes *)

Definition tag_ok (fx : list ffield) (data : list byte) (v : vfield layout) : Prop :=
  exists f, nth_error fx (v_fixed v) = Some f /\
    match v_kind v with
    | VString => read_length data (f_offset f) = src_len src (v_path v)
    | VEnum _ => read_tag pf f data = src_tag src (v_path v)
    end.

Lemma var_offsets fx data vs :
  (forall v k c d n, Q v k c d n -> encoding_size pf c d = Ret n) ->
  Forall (tag_ok fx data) vs -> forall off off' j, stored data vs off off' ->
  exists o, var_offset_loop pf (encoding_size pf) fx data (firstn j vs) off = Ret o /\ stored data (skipn j vs) o off'.
Proof.
  intros HQ HF. induction HF as [|v vs (f & Hf & Ht) HF IH]; intros off off' j Hs.
  - exists off. rewrite firstn_nil, skipn_nil. split; [reflexivity|exact Hs].
  - destruct j as [|j].
    + exists off. split; [reflexivity|exact Hs].
    + cbn [firstn skipn var_offset_loop]. rewrite pick_nth, Hf.
      inversion Hs as [|? ? ? ? bs Ek H1 H2 H3 H4 H5|? ? ? ? cases k c n Ek H1 H2 H3 H4 H5]; subst; rewrite Ek in Ht; rewrite Ek.
      * rewrite Ht, H1. cbn [bind]. apply IH. exact H5.
      * rewrite Ht, H1. cbn [bind]. unfold index_from. destruct (Nat.leb_spec off (length data)); [|lia]. cbn [bind].
        rewrite pick_nth, H2, (HQ _ _ _ _ _ H4). cbn [bind]. apply IH. exact H5.
Qed.
End Vars.

(** ** Reading *)

Lemma nat_bind_inj (x y : outcome nat) n :
  (a <- x ;; Ret (Z.of_nat a)) = (a <- y ;; Ret (Z.of_nat a)) -> y = Ret n -> x = Ret n.
Proof.
  intros H ->. cbn [bind] in H. destruct x as [m| |]; cbn [bind] in H; try discriminate. injection H as H.
  f_equal. lia.
Qed.

Lemma diverge_sym p q : diverge p q -> diverge q p.
Proof. unfold diverge. tauto. Qed.

Section Layout.
Context (pf : profile) (t : ty) (q : path) (l : layout).
Context (Hcalc : calculate_layout t q = Ret l).

Let Hl : lay_ok (flat t q) l := calculate_layout_ok _ _ _ Hcalc.

Lemma flat_entry_unique e k k' : In (e, k) (flat t q) -> In (e, k') (flat t q) -> k = k'.
Proof.
  intros H1 H2. assert (E : (e, k) = (e, k')).
  { eapply (NoDup_map_inj fst); [apply flat_nodup|exact H1|exact H2|reflexivity]. }
  congruence.
Qed.

Lemma index_entry e k : In (e, k) (flat t q) ->
  exists j x f, nth_error (l_indices l) j = Some x /\ i_path x = e /\ search (l_indices l) e = Ok j /\
    fixed_of l x = Ret f /\ In f (l_fixed l) /\ f_path f = e /\ kind_rel k (f_kind f).
Proof.
  intros Hin.
  assert (He : In e (map i_path (l_indices l))).
  { eapply Permutation_in; [symmetry; apply (lo_ixp _ _ Hl)|]. eapply Permutation_in; [symmetry; apply (lo_paths _ _ Hl)|].
    apply (in_map fst) in Hin. exact Hin. }
  apply in_map_iff in He as (x & Ex & Hx). apply In_nth_error in Hx as [j Hj].
  pose proof (lo_ixf _ _ Hl) as Hf. rewrite Forall_forall in Hf. destruct (Hf _ (nth_error_In _ _ Hj)) as (f & Hf1 & Hf2).
  exists j, x, f. split; [exact Hj|]. split; [exact Ex|].
  split; [rewrite <- Ex; apply search_hit; [apply (lo_desc _ _ Hl)|exact Hj]|].
  split; [unfold fixed_of; rewrite Hf1; reflexivity|]. split; [eapply nth_error_In; exact Hf1|].
  split; [congruence|]. pose proof (lo_kinds _ _ Hl) as Hk. rewrite Forall_forall in Hk.
  destruct (Hk f (nth_error_In _ _ Hf1)) as (k' & Hk1 & Hk2). rewrite Hf2, Ex in Hk1.
  rewrite (flat_entry_unique _ _ _ Hin Hk1). exact Hk2.
Qed.

Lemma index_unique x y : In x (l_indices l) -> In y (l_indices l) -> i_path x = i_path y -> x = y.
Proof. intros Hx Hy E. eapply (NoDup_map_inj i_path); [apply desc_nodup, (lo_desc _ _ Hl)|exact Hx|exact Hy|exact E]. Qed.

Lemma var_entry e k x : In (e, k) (flat t q) -> is_var (e, k) = true -> In x (l_indices l) -> i_path x = e ->
  exists v, nth_error (l_vars l) (i_var x) = Some v /\ var_rel (e, k) v.
Proof.
  intros Hin Hv Hx Ex. destruct (lo_vars _ _ Hl) as (fv & Hp & HF).
  assert (Hf : In (e, k) fv). { eapply Permutation_in; [symmetry; exact Hp|]. apply filter_In. auto. }
  apply In_nth_error in Hf as [i Hi]. destruct (Forall2_nth_l _ _ _ _ _ HF Hi) as (v & Hvi & Hr).
  destruct (lo_ixv _ _ Hl _ _ Hvi) as (y & Hy & E1 & E2). assert (x = y) as ->.
  { apply index_unique; [exact Hx|exact Hy|]. rewrite E1. destruct Hr as [Hr _]. cbn [fst] in Hr. congruence. }
  rewrite E2. exists v. auto.
Qed.

Lemma var_flat v : In v (l_vars l) -> exists k, In (v_path v, k) (flat t q) /\ is_var (v_path v, k) = true /\ var_rel (v_path v, k) v.
Proof.
  intros Hv. destruct (lo_vars _ _ Hl) as (fv & Hp & HF).
  destruct (Forall2_in_r _ _ _ _ HF Hv) as ([e k] & He & Hr). pose proof Hr as [E _]. cbn [fst] in E. rewrite E.
  apply (Permutation_in _ Hp) in He. apply filter_In in He as [He Hk]. exists k. auto.
Qed.

Lemma indices_diverge : ForallOrdPairs (fun a b => diverge (i_path a) (i_path b)) (l_indices l).
Proof.
  assert (HN : NoDup (map i_path (l_indices l))) by (apply desc_nodup, (lo_desc _ _ Hl)).
  apply FOP_nth. intros i j a b Hij Hi Hj.
  assert (Hin : forall x, In x (l_indices l) -> exists k, In (i_path x, k) (flat t q)).
  { intros x Hx. apply (in_map i_path) in Hx. apply (Permutation_in _ (lo_ixp _ _ Hl)) in Hx.
    apply (Permutation_in _ (lo_paths _ _ Hl)) in Hx. apply in_map_iff in Hx as ([e k] & E & Hx). exists k. cbn [fst] in E.
    rewrite <- E. exact Hx. }
  destruct (Hin a (nth_error_In _ _ Hi)) as [ka Ha]. destruct (Hin b (nth_error_In _ _ Hj)) as [kb Hb].
  assert (Hne : i_path a <> i_path b).
  { intros E. assert (i = j); [|lia]. eapply (proj1 (NoDup_nth_error _) HN i j).
    - rewrite map_length. apply nth_error_Some. congruence.
    - rewrite !nth_error_map, Hi, Hj. cbn [option_map]. congruence. }
  apply (FOP_In (fun e f => diverge (fst e) (fst f)) (flat t q) (i_path a, ka) (i_path b, kb));
    [intros ? ?; apply diverge_sym|apply flat_antichain|exact Ha|exact Hb|congruence].
Qed.

Lemma navigate_hit data e x j :
  nth_error (l_indices l) j = Some x -> search (l_indices l) e = Ok j -> navigate pf l data e = Ret (l, data, x).
Proof.
  intros Hj Hs. destruct l as [al vo ix fx vs]. cbn [navigate l_indices] in *. rewrite Hs, Hj. reflexivity.
Qed.

(** Below an enum the search continues in the layout of the case named by the path. *)
Lemma navigate_below data e cs k rest c o v cases :
  In (e, KTag cs) (flat t q) -> forall x j, nth_error (l_indices l) j = Some x -> i_path x = e ->
  variable_field_offset pf l (i_var x) data = Ret o -> o <= length data ->
  nth_error (l_vars l) (i_var x) = Some v -> v_kind v = VEnum cases -> nth_error cases k = Some c ->
  navigate pf l data (e ++ k :: rest) = navigate pf c (skipn o data) (e ++ k :: rest).
Proof.
  intros Hin x j Hj Ex Hoff Hlen Hv Hk Hc.
  assert (Hs : search (l_indices l) (e ++ k :: rest) = Err j).
  { eapply search_below; [apply (lo_desc _ _ Hl)|apply indices_diverge|exact Hj|]. rewrite Ex. exists (k :: rest).
    split; [discriminate|reflexivity]. }
  destruct l as [al vo ix fx vs]. cbn [l_indices l_vars] in *.
  remember (navigate pf c (skipn o data) (e ++ k :: rest)) as rhs eqn:Er.
  cbn [navigate]. rewrite Hs, Hj. rewrite Ex.
  rewrite (proj2 (is_prefix_of_iff _ _)) by (exists (k :: rest); reflexivity).
  rewrite nth_error_app2, Nat.sub_diag by lia. cbn [nth_error bind].
  rewrite Hoff. cbn [bind]. unfold index_from. destruct (Nat.leb_spec o (length data)); [|lia]. cbn [bind].
  rewrite pick_nth, Hv, Hk, pick_nth, Hc. symmetry. exact Er.
Qed.
End Layout.

Lemma everywhere_case P l v cases c :
  everywhere P l -> In v (l_vars l) -> v_kind v = VEnum cases -> In c cases -> everywhere P c.
Proof. intros H Hv Hk Hc. inversion H; subst. eauto. Qed.

Lemma flat_tag_small t q e cs c : small t -> In (e, KTag cs) (flat t q) -> In c cs -> small (snd c).
Proof. intros H H1 H2. pose proof (flat_tag_size _ _ _ _ _ H1 H2). unfold small in *. lia. Qed.

(** ** The main statement *)

Definition reads_back (pf : profile) (src : source) (t : ty) (q : path) (l : layout) (data : list byte) (n : nat) : Prop :=
  encoding_size pf l data = Ret n /\
  forall v, presents src t q v -> typed t v -> presents (marshaller_source pf l data) t q v.

Lemma agree_slice n d1 d2 o s : agree_upto n d1 d2 -> o + s <= n -> slice d1 o s = slice d2 o s.
Proof. intros H Hle. apply slice_ext. intros i Hi. apply H. lia. Qed.

Lemma encode_correct pf src t : forall q l v,
  small t -> calculate_layout t q = Ret l -> marshallable pf l -> presents src t q v -> typed t v ->
  enc_spec pf src l (reads_back pf src t q l).
Proof.
  induction t as [t IH] using ty_payload_ind. intros q l v Hsmall Hcalc Hmar Hpres Htyped.
  pose proof (calculate_layout_ok _ _ _ Hcalc) as Hl.
  pose proof (presents_flat _ _ _ _ Hpres Htyped) as Hans. rewrite Forall_forall in Hans.
  pose proof (calculate_layout_narrow _ _ _ Hsmall Hcalc) as Hnar.
  assert (Hst : Forall (storable pf) (l_fixed l)) by (inversion Hmar; assumption).
  assert (Hsound : Forall (sound_field pf (l_var_off l)) (l_fixed l)).
  { pose proof (lo_place _ _ Hl) as Hp. rewrite Forall_forall in *. intros f Hf. split; [apply Hp; exact Hf|].
    split; [apply Hst; exact Hf|apply Hnar; exact Hf]. }
  assert (Hfa : Forall (fun f => exists z, ans src f = Ret z /\ fits f z) (l_fixed l)).
  { pose proof (lo_kinds _ _ Hl) as Hk. rewrite Forall_forall in *. intros f Hf. destruct (Hk _ Hf) as (k & Hin & Hr).
    pose proof (Hans _ Hin) as Ha. unfold answers in Ha. cbn [fst snd] in Ha. unfold ans, fits.
    destruct k as [p| |cs], (f_kind f) as [p'| |i p'|p' o n]; cbn [kind_rel] in Hr; try (destruct Hr; fail).
    - subst p'. destruct Ha as (z & H1 & H2). exists z. auto.
    - destruct Ha as (bs & H1 & H2 & H3). rewrite H1. exists (Z.of_nat (length bs)). split; [reflexivity|lia].
    - subst n. destruct Ha as (k & l' & t' & v' & H1 & H2 & _). rewrite H1. exists (Z.of_nat k). split; [reflexivity|].
      split; [lia|]. assert (k < length cs) by (apply nth_error_Some; congruence).
      pose proof (flat_tag_cases _ _ _ _ Hin). unfold small in Hsmall. unfold tag_bits.
      destruct (required_bits_spec (Z.of_nat (length cs - 1))) as (B1 & B2 & _); [lia|]. rewrite Z2Nat.id by lia. lia. }
  set (Q := fun (v : vfield layout) (k : nat) (c : layout) (d : list byte) (n : nat) =>
    encoding_size pf c d = Ret n /\
    forall cs l' t' v', In (v_path v, KTag cs) (flat t q) -> nth_error cs k = Some (l', t') ->
      presents src t' (v_path v ++ [k]) v' -> typed t' v' -> presents (marshaller_source pf c d) t' (v_path v ++ [k]) v').
  assert (Hgood : Forall (vgood pf src Q) (l_vars l)).
  { rewrite Forall_forall. intros w Hw. destruct (var_flat t q l Hcalc w Hw) as (k & Hin & Hiv & Hr).
    pose proof (Hans _ Hin) as Ha. unfold answers in Ha. cbn [fst snd] in Ha. destruct Hr as [_ Hr]. cbn [fst snd] in Hr.
    unfold vgood. destruct k as [p| |cs]; [destruct Hr| |].
    - rewrite Hr. destruct Ha as (bs & H1 & H2 & _). exists bs. auto.
    - destruct Hr as (ls & Hk & _ & Hls). rewrite Hk. destruct Ha as (k & l' & t' & v' & H1 & H2 & H3 & H4).
      destruct (members_nth_l _ _ _ _ _ _ _ Hls H2) as (c & Hc & Hcc). cbn [snd Nat.add] in Hcc.
      exists k, c. split; [exact H1|]. split; [exact Hc|].
      pose proof (IH q (v_path w) cs (l', t') Hin (nth_error_In _ _ H2) (v_path w ++ [k]) c v') as He. cbn [snd] in He.
      assert (Hs' : small t') by (apply (flat_tag_small _ _ _ _ (l', t') Hsmall Hin); eapply nth_error_In; exact H2).
      assert (Hm' : marshallable pf c) by (eapply everywhere_case; [exact Hmar|exact Hw|exact Hk|eapply nth_error_In; exact Hc]).
      specialize (He Hs' Hcc Hm' H3 H4). intros n Hn buf Hb. destruct (He n Hn buf Hb) as (buf' & E & L & K & S).
      exists buf'. repeat split; try assumption.
      + apply (S data); assumption.
      + intros cs2 l2 t2 v2 I2 N2 P2 T2. rewrite (flat_entry_unique _ _ _ _ _ Hin I2) in *.
        assert (cs2 = cs) as -> by (pose proof (flat_entry_unique _ _ _ _ _ Hin I2); congruence).
        assert (t2 = t') as -> by congruence. apply (S data); assumption. }
  intros n Hn buf Hlen.
  assert (El : l = Layout (l_align l) (l_var_off l) (l_indices l) (l_fixed l) (l_vars l)) by (destruct l; reflexivity).
  set (al := l_align l) in *. set (vo := l_var_off l) in *. set (fx := l_fixed l) in *. set (vs := l_vars l) in *.
  assert (Hn' : exists off, size_loop src (encoding_size_with_source src) vs vo = Ret off /\ align_nat off al = Ret n).
  { rewrite El in Hn. cbn [encoding_size_with_source] in Hn. inv_bind Hn. eauto. }
  destruct Hn' as (off & Hoff & Hal). destruct (align_nat_inv _ _ _ Hal) as (_ & Ha0 & _ & En).
  pose proof (size_loop_ge src _ _ _ _ Hoff) as Hge. pose proof (align_up_ge off al Ha0) as Hup.
  destruct (encode_fixed_all pf src vo fx buf Hsound (lo_disj _ _ Hl) ltac:(lia) Hfa) as (b1 & E1 & L1 & K1 & R1 & _).
  destruct (encode_vars_ok pf src Q vs Hgood vo off b1 Hoff ltac:(lia)) as (b2 & E2 & L2 & K2 & S2).
  exists b2. split.
  { rewrite El. cbn [encode_with_source]. destruct (Nat.leb_spec vo (length buf)); [|lia]. cbn [bind].
    rewrite E1. cbn [bind]. rewrite E2. cbn [bind]. rewrite Hal. reflexivity. }
  split; [lia|]. split.
  { intros i Hi. rewrite K2 by lia. apply K1. lia. }
  intros data Hd Hag.
  assert (Hstored : stored src Q data vs vo off).
  { apply S2; [lia|]. intros i Hi. apply Hag. lia. }
  assert (Hrd : forall f, In f fx -> rd pf f data = ans src f).
  { intros f Hf. rewrite Forall_forall in R1, Hsound. rewrite <- (R1 _ Hf).
    apply rd_ext with (vo := vo); [apply Hsound; exact Hf|lia|lia|].
    pose proof (Hsound _ Hf) as ((Hfit & _) & _). fold vo in Hfit.
    apply slice_ext. intros i Hi. rewrite Hag by lia. apply K2. lia. }
  assert (Htags : Forall (tag_ok pf src fx data) vs).
  { rewrite Forall_forall. intros w Hw. pose proof (lo_vfix _ _ Hl) as Hvf. rewrite Forall_forall in Hvf.
    destruct (Hvf _ Hw) as (f & Hf & Ef). fold fx in Hf. exists f. split; [exact Hf|].
    pose proof (nth_error_In _ _ Hf) as Hfin. specialize (Hrd _ Hfin). unfold rd, ans in Hrd.
    destruct (var_flat t q l Hcalc w Hw) as (k & Hin & Hiv & [_ Hr]). cbn [fst snd] in Hr.
    pose proof (lo_kinds _ _ Hl) as Hkk. rewrite Forall_forall in Hkk. destruct (Hkk _ Hfin) as (k' & Hk' & Hrel).
    rewrite Ef in Hk'. rewrite <- (flat_entry_unique _ _ _ _ _ Hin Hk') in Hrel.
    pose proof (Hans _ Hin) as Ha. unfold answers in Ha. cbn [fst snd] in Ha. rewrite Ef in Hrd.
    destruct k as [p| |cs]; [destruct Hr| |].
    - rewrite Hr. destruct (f_kind f); cbn [kind_rel] in Hrel; try (destruct Hrel; fail).
      destruct Ha as (bs & H1 & _). rewrite H1 in *. eapply nat_bind_inj; [exact Hrd|reflexivity].
    - destruct Hr as (ls & -> & _). destruct (f_kind f); cbn [kind_rel] in Hrel; try (destruct Hrel; fail).
      destruct Ha as (k & l' & t' & v' & H1 & _). rewrite H1 in *. eapply nat_bind_inj; [exact Hrd|reflexivity]. }
  assert (HQ : forall v k c d n, Q v k c d n -> encoding_size pf c d = Ret n) by (intros ? ? ? ? ? [H _]; exact H).
  assert (Hpos : forall j, j <= length vs -> exists o, variable_field_offset pf l j data = Ret o /\ stored src Q data (skipn j vs) o off).
  { intros j Hj. destruct (var_offsets pf src Q fx data vs HQ Htags vo off j Hstored) as (o & Ho & So). exists o.
    split; [|exact So]. unfold variable_field_offset. fold vs fx vo. destruct (Nat.leb_spec j (length vs)); [|lia]. cbn [bind]. exact Ho. }
  split.
  { rewrite El. cbn [encoding_size]. destruct (var_offsets pf src Q fx data vs HQ Htags vo off (length vs) Hstored) as (o & Ho & So).
    rewrite firstn_all in Ho. rewrite skipn_all in So. 
    assert (o = off) as -> by (inversion So; congruence). rewrite Ho. cbn [bind]. exact Hal. }
  intros w Hpw Htw. apply (presents_build src); [exact Hpw|exact Htw|]. rewrite Forall_forall. intros [e k] Hin.
  destruct (index_entry t q l Hcalc e k Hin) as (j & x & f & Hj & Ex & Hsr & Hfo & Hf & Ef & Hrel).
  pose proof (navigate_hit pf t q l Hcalc data e x j Hj Hsr) as Hnav.
  specialize (Hrd _ Hf). unfold rd, ans in Hrd. rewrite Ef in Hrd.
  pose proof (Hans _ Hin) as Ha. unfold answers in Ha. unfold agrees. cbn [fst snd] in *.
  destruct k as [p| |cs]; destruct (f_kind f) as [p'| |i' p'|p' o' n'] eqn:Ek; cbn [kind_rel] in Hrel; try (destruct Hrel; fail).
  - subst p'. cbn [marshaller_source src_prim]. unfold get_primitive. rewrite Hnav. cbn [bind]. rewrite Hfo. cbn [bind].
    rewrite Ek. replace (prim_eqb p p) with true by (destruct p; reflexivity). exact Hrd.
  - destruct Ha as (bs & A1 & A2 & _). cbn [marshaller_source src_len src_bytes].
    assert (Hrl : read_length data (f_offset f) = Ret (length bs)) by (eapply nat_bind_inj; [exact Hrd|exact A1]).
    split.
    + unfold get_length. rewrite Hnav. cbn [bind]. rewrite Hfo. cbn [bind]. rewrite Ek, Hrl, A1. reflexivity.
    + unfold get_bytes. rewrite Hnav. cbn [bind]. rewrite Hfo. cbn [bind].
      destruct (var_entry t q l Hcalc e KStr x Hin eq_refl (nth_error_In _ _ Hj) Ex) as (vf & Hvf & [Ep Hvk]). cbn [fst snd] in Ep, Hvk.
      assert (Hlt : i_var x < length vs) by (apply nth_error_Some; unfold vs; congruence).
      destruct (Hpos (i_var x) ltac:(lia)) as (o & Ho & So). rewrite Ho. cbn [bind]. rewrite Ek, Hrl. cbn [bind].
      rewrite Hvf, Hvk. destruct (skipn (i_var x) vs) as [|v0 vs0] eqn:Esk.
      { exfalso. pose proof (f_equal (@length _) Esk) as EL. rewrite skipn_length in EL. cbn [length] in EL. lia. }
      assert (v0 = vf) as ->.
      { assert (E0 : nth_error (skipn (i_var x) vs) 0 = Some v0) by (rewrite Esk; reflexivity).
        rewrite nth_error_skipn, Nat.add_0_r in E0. unfold vs in E0. congruence. }
      inversion So as [|? ? ? ? bs' Ek' B1 B2 B3 B4 B5|? ? ? ? cases k c n0 Ek' B1 B2 B3 B4 B5]; subst; [|congruence].
      rewrite Ep in B1, B2. assert (bs' = bs) as -> by congruence. rewrite raw_read_ok by exact B3. rewrite B4. congruence.
  - destruct Ha as (k & l' & t' & v' & A1 & A2 & A3 & A4). cbn [marshaller_source src_tag].
    assert (Hrt : read_tag pf f data = Ret k) by (eapply nat_bind_inj; [exact Hrd|exact A1]).
    split.
    + unfold get_case_tag. rewrite Hnav. cbn [bind]. rewrite Hfo. cbn [bind]. rewrite Hrt, A1. reflexivity.
    + intros k2 l2 t2 v2 T1 T2 T3 T4. assert (k2 = k) as -> by congruence. 
      destruct (var_entry t q l Hcalc e (KTag cs) x Hin eq_refl (nth_error_In _ _ Hj) Ex) as (vf & Hvf & [Ep Hvk]). cbn [fst snd] in Ep, Hvk.
      assert (Hlt : i_var x < length vs) by (apply nth_error_Some; unfold vs; congruence).
      destruct (Hpos (i_var x) ltac:(lia)) as (o & Ho & So).
      destruct (skipn (i_var x) vs) as [|v0 vs0] eqn:Esk.
      { exfalso. pose proof (f_equal (@length _) Esk) as EL. rewrite skipn_length in EL. cbn [length] in EL. lia. }
      assert (v0 = vf) as ->.
      { assert (E0 : nth_error (skipn (i_var x) vs) 0 = Some v0) by (rewrite Esk; reflexivity).
        rewrite nth_error_skipn, Nat.add_0_r in E0. unfold vs in E0. congruence. }
      destruct Hvk as (ls & Hvk & _).
      inversion So as [|? ? ? ? bs' Ek' B1 B2 B3 B4 B5|? ? ? ? cases k' c n0 Ek' B1 B2 B3 B4 B5]; subst; [congruence|].
      rewrite Ep in B1. assert (k' = k) as -> by congruence. destruct B4 as [_ B4]. rewrite Ep in B4.
      apply presents_ext with (s := marshaller_source pf c (skipn o data)); [eapply B4; eassumption|].
      intros q' [rest ->]. rewrite <- app_assoc. cbn [app].
      pose proof (navigate_below pf t q l Hcalc data (i_path x) cs k rest c o vf cases Hin x j Hj eq_refl Ho ltac:(lia) Hvf Ek' B2) as Hb.
      cbn [marshaller_source src_prim src_tag src_len src_bytes].
      unfold get_primitive, get_case_tag, get_length, get_bytes. rewrite Hb. repeat split; reflexivity.
Qed.
