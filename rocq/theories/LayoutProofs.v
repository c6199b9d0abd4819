(** * Layouts: what [calculate_layout] produces *)

From Coq Require Import Permutation Sorted ZifyBool ZifyNat ZifyN.
From Verif Require Import Base BaseFacts UtilModel UtilSpec UtilProofs StrModel TypesModel TypesSpec TypesProofs.
From Verif Require Import MarshalModel MarshalSpec ListFacts.

(** ** Induction over types and layouts *)

Lemma ty_ind' (P : ty -> Prop) :
  P TUnit -> (forall p, P (TPrim p)) -> P TString ->
  (forall ts, Forall P ts -> P (TTuple ts)) ->
  (forall fs, Forall (fun f => P (snd f)) fs -> P (TStruct fs)) ->
  (forall cs, Forall (fun c => P (snd c)) cs -> P (TEnum cs)) ->
  forall t, P t.
Proof.
  intros H1 H2 H3 H4 H5 H6. fix IH 1. intros [|p| |ts|fs|cs].
  - exact H1.
  - apply H2.
  - exact H3.
  - apply H4. induction ts as [|t ts IHt]; constructor; [apply IH|exact IHt].
  - apply H5. induction fs as [|[l t] fs IHf]; constructor; [apply IH|exact IHf].
  - apply H6. induction cs as [|[l t] cs IHc]; constructor; [apply IH|exact IHc].
Qed.

Lemma layout_ind' (P : layout -> Prop) :
  (forall al vo ix fx vs,
     (forall v cases c, In v vs -> v_kind v = VEnum cases -> In c cases -> P c) -> P (Layout al vo ix fx vs)) ->
  forall l, P l.
Proof.
  intros H. fix IH 1. intros [al vo ix fx vs]. apply H.
  induction vs as [|[vp vf vk] vs IHv]; [intros ? ? ? []|].
  intros v cases c [<-|Hv] Hk Hc.
  - cbn [v_kind] in Hk. destruct vk as [|cs]; [discriminate|]. injection Hk as <-.
    induction cs as [|d cs IHc]; [destruct Hc|]. destruct Hc as [<-|Hc]; [apply IH|apply IHc; exact Hc].
  - eapply IHv; eassumption.
Qed.

(** ** The elements of a type outside enum payloads *)

Inductive fk : Type :=
| KPrim (p : prim)
| KStr
| KTag (cases : list (str * ty)).

Section FlatMembers.
Context {A B : Type} (f : A -> path -> list B).
Fixpoint flat_members (l : list A) (q : path) (k : nat) : list B :=
  match l with
  | [] => []
  | a :: l' => f a (q ++ [k]) ++ flat_members l' q (S k)
  end.
End FlatMembers.

Fixpoint flat (t : ty) (q : path) : list (path * fk) :=
  match t with
  | TUnit => []
  | TPrim p => [(q, KPrim p)]
  | TString => [(q, KStr)]
  | TTuple ts => flat_members flat ts q 0
  | TStruct fs => flat_members (fun f => flat (snd f)) fs q 0
  | TEnum cs => [(q, KTag cs)]
  end.

Definition tag_bits (cs : list (str * ty)) : nat := Z.to_nat (required_bits (Z.of_nat (length cs - 1))).

Definition flat_fixed (e : path * fk) : list ffield :=
  match e with
  | (q, KPrim p) => [{| f_path := q; f_kind := FPrim p; f_offset := 0 |}]
  | (q, KStr) => [{| f_path := q; f_kind := FLength; f_offset := 0 |}]
  | (_, KTag _) => []
  end.

Definition flat_bits (e : path * fk) : list bitf :=
  match e with
  | (q, KTag cs) => [{| b_path := q; b_off := 0; b_bits := tag_bits cs; b_index := 0 |}]
  | _ => []
  end.

Definition is_var (e : path * fk) : bool :=
  match snd e with KPrim _ => false | _ => true end.

(** Layouts of the cases of an enum at path [q]. *)
Definition case_layouts (cs : list (str * ty)) (q : path) (ls : list layout) : Prop :=
  members (fun c q' => calculate_layout (snd c) q') cs q 0 = Ret ls.

Definition var_rel (e : path * fk) (v : vfield layout) : Prop :=
  v_path v = fst e /\
  match snd e with
  | KPrim _ => False
  | KStr => v_kind v = VString
  | KTag cs => exists ls, v_kind v = VEnum ls /\ cs <> [] /\ case_layouts cs (fst e) ls
  end.

Lemma flat_members_app_map {A B C} (f : A -> path -> list B) (g : B -> list C) l q k :
  flat_map g (flat_members f l q k) = flat_members (fun a q' => flat_map g (f a q')) l q k.
Proof.
  revert k. induction l as [|a l IH]; intros k; cbn [flat_members flat_map]; [reflexivity|].
  rewrite flat_map_app, IH. reflexivity.
Qed.

Lemma filter_flat_members {A B} (f : A -> path -> list B) g l q k :
  filter g (flat_members f l q k) = flat_members (fun a q' => filter g (f a q')) l q k.
Proof.
  revert k. induction l as [|a l IH]; intros k; cbn [flat_members filter]; [reflexivity|].
  rewrite filter_app, IH. reflexivity.
Qed.

Definition unroll_rel (t : ty) : Prop := forall q fx bs vs,
  unroll_type t q = Ret (fx, bs, vs) ->
  fx = flat_map flat_fixed (flat t q) /\
  bs = flat_map flat_bits (flat t q) /\
  Forall2 var_rel (filter is_var (flat t q)) vs.

Lemma unroll_members {A} (g : A -> ty) l :
  Forall (fun a => unroll_rel (g a)) l -> forall q k us,
  members (fun a q' => unroll_type (g a) q') l q k = Ret us ->
  let fl := flat_members (fun a => flat (g a)) l q k in
  fst (fst (concat_unrolled us)) = flat_map flat_fixed fl /\
  snd (fst (concat_unrolled us)) = flat_map flat_bits fl /\
  Forall2 var_rel (filter is_var fl) (snd (concat_unrolled us)).
Proof.
  induction 1 as [|a l Ha Hl IH]; intros q k us H; cbn [members] in H.
  - injection H as <-. cbn. repeat split. constructor.
  - inv_bind H. inv_bind H. injection H as <-. destruct a0 as [[fx bs] vs].
    destruct (Ha _ _ _ _ Ha0) as (E1 & E2 & E3). destruct (IH _ _ _ Ha1) as (F1 & F2 & F3).
    cbn [flat_members]. unfold concat_unrolled in *. cbn [fst snd flat_map] in *.
    rewrite !flat_map_app, filter_app. repeat split.
    + rewrite E1, F1. reflexivity.
    + rewrite E2, F2. reflexivity.
    + apply Forall2_app; assumption.
Qed.

Lemma unroll_flat t : unroll_rel t.
Proof.
  induction t using ty_ind'; intros q fx bs vs Hu; cbn [unroll_type] in Hu.
  - injection Hu as <- <- <-. repeat split; constructor.
  - injection Hu as <- <- <-. repeat split; constructor.
  - injection Hu as <- <- <-. repeat split. cbn. constructor; [|constructor]. split; reflexivity.
  - destruct (0 <? length ts); [|discriminate]. inv_bind Hu.
    destruct (unroll_members (fun t => t) ts H q 0 a Ha) as (E1 & E2 & E3).
    assert (E : concat_unrolled a = (fx, bs, vs)) by congruence. rewrite E in *. cbn [fst snd] in *. auto.
  - destruct (0 <? length fs); [|discriminate]. inv_bind Hu.
    destruct (unroll_members (fun f => snd f) fs H q 0 a Ha) as (E1 & E2 & E3).
    assert (E : concat_unrolled a = (fx, bs, vs)) by congruence. rewrite E in *. cbn [fst snd] in *. auto.
  - destruct (0 <? length cs) eqn:E; [|discriminate]. inv_bind Hu. injection Hu as <- <- <-.
    cbn [flat flat_map flat_fixed flat_bits app filter is_var snd]. repeat split.
    constructor; [|constructor]. split; [reflexivity|]. cbn [snd v_kind]. exists a.
    split; [reflexivity|]. split; [intros ->; cbn in E; discriminate|]. exact Ha.
Qed.

(** Paths of the elements: they extend the prefix, and none is a prefix of another. *)

Lemma flat_extends t : forall q e, In e (flat t q) -> extends q (fst e).
Proof.
  assert (G : forall A (g : A -> ty) l, Forall (fun a => forall q e, In e (flat (g a) q) -> extends q (fst e)) l ->
                forall q k e, In e (flat_members (fun a => flat (g a)) l q k) -> extends q (fst e)).
  { intros A g l HF. induction HF as [|a l Ha Hl IH]; intros q k e Hin; cbn [flat_members] in Hin; [destruct Hin|].
    apply in_app_or in Hin as [Hin|Hin]; [|eapply IH; exact Hin].
    destruct (Ha _ _ Hin) as [s Hs]. exists (k :: s). rewrite Hs, <- app_assoc. reflexivity. }
  induction t using ty_ind'; intros q e Hin; cbn [flat] in Hin.
  - destruct Hin.
  - destruct Hin as [<-|[]]. exists []. symmetry. apply app_nil_r.
  - destruct Hin as [<-|[]]. exists []. symmetry. apply app_nil_r.
  - eapply (G _ (fun t => t)); eassumption.
  - eapply (G _ (fun f => snd f)); eassumption.
  - destruct Hin as [<-|[]]. exists []. symmetry. apply app_nil_r.
Qed.

(** Two paths diverge: neither extends the other. *)
Definition diverge (p q : path) : Prop := ~ extends p q /\ ~ extends q p.

Lemma diverge_snoc q i j s r : i <> j -> diverge ((q ++ [i]) ++ s) ((q ++ [j]) ++ r).
Proof.
  intros H. split; intros [u E]; rewrite <- !app_assoc in E; cbn [app] in E; apply app_inv_head in E; congruence.
Qed.

Lemma flat_members_ge {A} (g : A -> ty) l q k e :
  In e (flat_members (fun a => flat (g a)) l q k) -> exists j, k <= j /\ extends (q ++ [j]) (fst e).
Proof.
  revert k. induction l as [|a l IH]; intros k Hin; cbn [flat_members] in Hin; [destruct Hin|].
  apply in_app_or in Hin as [Hin|Hin].
  - exists k. split; [lia|]. eapply flat_extends. exact Hin.
  - destruct (IH _ Hin) as (j & Hj & He). exists j. split; [lia|exact He].
Qed.

Lemma flat_antichain t : forall q, ForallOrdPairs (fun e f => diverge (fst e) (fst f)) (flat t q).
Proof.
  assert (G : forall A (g : A -> ty) l,
    Forall (fun a => forall q, ForallOrdPairs (fun e f => diverge (fst e) (fst f)) (flat (g a) q)) l ->
    forall q k, ForallOrdPairs (fun e f => diverge (fst e) (fst f)) (flat_members (fun a => flat (g a)) l q k)).
  { intros A g l HF. induction HF as [|a l Ha Hl IH]; intros q k; cbn [flat_members]; [constructor|].
    apply FOP_app; [apply Ha|apply IH|]. intros e f He Hf.
    destruct (flat_extends _ _ _ He) as [s Hs]. destruct (flat_members_ge _ _ _ _ _ Hf) as (j & Hj & [r Hr]).
    rewrite Hs, Hr. apply diverge_snoc. lia. }
  induction t using ty_ind'; intros q; cbn [flat]; try (repeat constructor; fail).
  - apply (G _ (fun t => t)). exact H.
  - apply (G _ (fun f => snd f)). exact H.
Qed.

Lemma diverge_neq p q : diverge p q -> p <> q.
Proof. intros [H _] ->. apply H. exists []. symmetry. apply app_nil_r. Qed.

Lemma flat_nodup t q : NoDup (map fst (flat t q)).
Proof.
  pose proof (flat_antichain t q) as H. induction H as [|e l He Hl IH]; cbn [map]; constructor; [|exact IH].
  intros Hin. apply in_map_iff in Hin as (f & Ef & Hf). rewrite Forall_forall in He.
  apply (diverge_neq _ _ (He _ Hf)). congruence.
Qed.

(** ** Bit-field allocation *)

Definition cont_ok (c : cont) : Prop := is_unsigned (c_prim c) = true /\ c_off c + c_cap c = 8 * prim_size (c_prim c).

Lemma place_spec cs k n i o cs1 :
  place cs k n = Some (i, o, cs1) ->
  exists j c, i = k + j /\ nth_error cs j = Some c /\ n <= c_cap c /\ o = c_off c /\
    cs1 = update cs j (fun _ => {| c_prim := c_prim c; c_cap := c_cap c - n; c_off := c_off c + n |}).
Proof.
  revert k i o cs1. induction cs as [|c cs IH]; intros k i o cs1 H; cbn [place] in H; [discriminate|].
  destruct (Nat.leb_spec n (c_cap c)) as [Hn|Hn].
  - injection H as <- <- <-. exists 0, c. rewrite Nat.add_0_r. repeat split. exact Hn.
  - destruct (place cs (S k) n) as [[[i' o'] cs']|] eqn:E; [|discriminate]. injection H as <- <- <-.
    destruct (IH _ _ _ _ E) as (j & c' & E1 & E2 & E3 & E4 & E5). exists (S j), c'.
    split; [lia|]. split; [exact E2|]. split; [exact E3|]. split; [exact E4|]. cbn [update]. f_equal. exact E5.
Qed.

Definition bit_before (b c : bitf) : Prop := b_index b = b_index c -> b_off b + b_bits b <= b_off c.

(** A container persists, with the same primitive and at least the same fill level. *)
Definition conts_grow (cs cs' : list cont) : Prop := forall j c,
  nth_error cs j = Some c -> exists c', nth_error cs' j = Some c' /\ c_prim c' = c_prim c /\ c_off c <= c_off c'.

Lemma conts_grow_refl cs : conts_grow cs cs.
Proof. intros j c H. exists c. auto. Qed.

Lemma conts_grow_trans a b c : conts_grow a b -> conts_grow b c -> conts_grow a c.
Proof.
  intros H1 H2 j x Hx. destruct (H1 _ _ Hx) as (y & Hy & E1 & L1). destruct (H2 _ _ Hy) as (z & Hz & E2 & L2).
  exists z. split; [exact Hz|]. split; [congruence|lia].
Qed.

Lemma primitive_for_bits_spec n p :
  primitive_for_bits n = Ret p -> is_unsigned p = true /\ n <= 8 * prim_size p.
Proof.
  unfold primitive_for_bits. destruct (Nat.leb_spec n 128); [|discriminate]. intros H'. injection H' as <-.
  destruct (Nat.ltb_spec 64 n); [split; [reflexivity|cbn; lia]|].
  destruct (Nat.ltb_spec 32 n); [split; [reflexivity|cbn; lia]|].
  destruct (Nat.ltb_spec 16 n); [split; [reflexivity|cbn; lia]|].
  destruct (Nat.ltb_spec 8 n); split; try reflexivity; cbn; lia.
Qed.

Lemma alloc_spec bs : forall cs r cs2,
  alloc bs cs = Ret (r, cs2) -> Forall cont_ok cs ->
  Forall cont_ok cs2 /\ conts_grow cs cs2 /\
  map b_path r = map b_path bs /\ map b_bits r = map b_bits bs /\
  Forall (fun b => (exists c, nth_error cs2 (b_index b) = Some c /\ b_off b + b_bits b <= c_off c) /\
                   (forall c, nth_error cs (b_index b) = Some c -> c_off c <= b_off b)) r /\
  ForallOrdPairs bit_before r.
Proof.
  induction bs as [|b bs IH]; intros cs r cs2 H Hok; cbn [alloc] in H.
  - injection H as <- <-. split; [exact Hok|]. split; [apply conts_grow_refl|]. repeat split; constructor.
  - destruct (place cs 0 (b_bits b)) as [[[i o] cs1]|] eqn:Ep.
    + destruct (place_spec _ _ _ _ _ _ Ep) as (j & c & Ei & Hj & Hn & Eo & E1). cbn [Nat.add] in Ei. subst i o.
      inv_bind H. destruct a as [r' cs']. injection H as <- <-.
      assert (Hc : cont_ok c) by (rewrite Forall_forall in Hok; apply Hok; eapply nth_error_In; exact Hj).
      set (c1 := {| c_prim := c_prim c; c_cap := c_cap c - b_bits b; c_off := c_off c + b_bits b |}) in *.
      assert (Hj1 : nth_error cs1 j = Some c1).
      { rewrite E1, nth_error_update, Nat.eqb_refl, Hj. reflexivity. }
      assert (Hok1 : Forall cont_ok cs1).
      { rewrite Forall_forall in *. intros x Hx. apply In_nth_error in Hx as [n Hx].
        rewrite E1, nth_error_update in Hx. destruct (n =? j).
        - destruct (nth_error cs n); [|discriminate]. injection Hx as <-. destruct Hc as [Hu Hs].
          split; [exact Hu|]. unfold c1. cbn [c_off c_cap c_prim]. lia.
        - apply Hok. eapply nth_error_In. exact Hx. }
      assert (Hg1 : conts_grow cs cs1).
      { intros n x Hx. rewrite E1, nth_error_update. destruct (Nat.eqb_spec n j) as [->|].
        - rewrite Hj in Hx. injection Hx as <-. rewrite Hj. cbn [option_map]. exists c1.
          split; [reflexivity|]. split; [reflexivity|]. unfold c1. cbn [c_off]. lia.
        - exists x. auto. }
      destruct (IH _ _ _ Ha Hok1) as (I1 & I2 & I3 & I4 & I5 & I6).
      split; [exact I1|]. split; [eapply conts_grow_trans; eassumption|].
      split; [cbn [map b_path]; f_equal; exact I3|]. split; [cbn [map b_bits]; f_equal; exact I4|]. split.
      * constructor.
        -- cbn [b_index b_off b_bits]. split.
           ++ destruct (I2 _ _ Hj1) as (c2 & Hc2 & _ & L). exists c2. split; [exact Hc2|].
              unfold c1 in L. cbn [c_off] in L. exact L.
           ++ intros x Hx. assert (x = c) by congruence. subst. lia.
        -- eapply Forall_impl; [|exact I5]. cbv beta. intros x [Hx1 Hx2]. split; [exact Hx1|].
           intros y Hy. destruct (Hg1 _ _ Hy) as (y1 & Hy1 & _ & L). specialize (Hx2 _ Hy1). lia.
      * constructor; [|exact I6]. rewrite Forall_forall in *. intros x Hx E. cbn [b_index b_off b_bits] in *.
        destruct (I5 _ Hx) as [_ Hx2]. rewrite <- E in Hx2. specialize (Hx2 _ Hj1). unfold c1 in Hx2.
        cbn [c_off] in Hx2. exact Hx2.
    + inv_bind H. inv_bind H. inv_bind H. destruct a1 as [r' cs']. injection H as <- <-.
      apply primitive_for_bits_spec in Ha as [Hu Hle].
      assert (Ecap : a0 = prim_size a * 8 - b_bits b).
      { unfold usub in Ha0. destruct (b_bits b <=? prim_size a * 8); congruence. }
      set (c1 := {| c_prim := a; c_cap := a0; c_off := b_bits b |}) in *.
      assert (Hok1 : Forall cont_ok (cs ++ [c1])).
      { apply Forall_app. split; [exact Hok|]. constructor; [|constructor]. split; [exact Hu|].
        unfold c1. cbn [c_off c_cap c_prim]. lia. }
      assert (Hg1 : conts_grow cs (cs ++ [c1])).
      { intros n x Hx. exists x. split; [|auto]. rewrite nth_error_app1; [exact Hx|]. apply nth_error_Some. congruence. }
      destruct (IH _ _ _ Ha1 Hok1) as (I1 & I2 & I3 & I4 & I5 & I6).
      assert (Hj1 := nth_error_snoc_r cs c1).
      split; [exact I1|]. split; [eapply conts_grow_trans; eassumption|].
      split; [cbn [map b_path]; f_equal; exact I3|]. split; [cbn [map b_bits]; f_equal; exact I4|]. split.
      * constructor.
        -- cbn [b_index b_off b_bits]. split.
           ++ destruct (I2 _ _ Hj1) as (c2 & Hc2 & _ & L). exists c2. split; [exact Hc2|].
              unfold c1 in L. cbn [c_off] in L. exact L.
           ++ intros x Hx. assert (length cs < length cs); [apply nth_error_Some; congruence|lia].
        -- eapply Forall_impl; [|exact I5]. cbv beta. intros x [Hx1 Hx2]. split; [exact Hx1|].
           intros y Hy. destruct (Hg1 _ _ Hy) as (y1 & Hy1 & _ & L). specialize (Hx2 _ Hy1). lia.
      * constructor; [|exact I6]. rewrite Forall_forall in *. intros x Hx E. cbn [b_index b_off b_bits] in *.
        destruct (I5 _ Hx) as [_ Hx2]. rewrite <- E in Hx2. specialize (Hx2 _ Hj1). unfold c1 in Hx2.
        cbn [c_off] in Hx2. exact Hx2.
Qed.

Lemma cont_fields_In k cs f :
  In f (cont_fields k cs) <-> exists j c, nth_error cs j = Some c /\ f = cont_field (k + j) (c_prim c).
Proof.
  revert k. induction cs as [|c cs IH]; intros k; cbn [cont_fields].
  - split; [intros []|]. intros (j & c & H & _). destruct j; discriminate.
  - split.
    + intros [<-|Hin].
      * exists 0, c. rewrite Nat.add_0_r. split; reflexivity.
      * apply IH in Hin as (j & c' & Hj & ->). exists (S j), c'. split; [exact Hj|]. f_equal. lia.
    + intros (j & c' & Hj & ->). destruct j as [|j].
      * injection Hj as ->. left. rewrite Nat.add_0_r. reflexivity.
      * right. apply IH. exists j, c'. split; [exact Hj|]. f_equal. lia.
Qed.

(** ** Offsets *)

Definition no_bit (f : ffield) : Prop := match f_kind f with FBit _ _ _ => False | _ => True end.

Lemma kind_size_field f : no_bit f -> kind_size (f_kind f) = Ret (field_size f).
Proof. unfold no_bit, kind_size, field_size. destruct (f_kind f); intros H; [reflexivity|reflexivity|reflexivity|destruct H]. Qed.

Lemma field_size_dvd f g : field_size g <= field_size f -> Nat.divide (field_size g) (field_size f).
Proof.
  assert (S : forall h, exists e, e <= 4 /\ field_size h = 2 ^ e).
  { intros h. unfold field_size. destruct (f_kind h) as [p| |? p|p ? ?];
      [|exists 2; split; [lia|reflexivity]| |];
      destruct p; first [exists 0; split; [lia|reflexivity]|exists 1; split; [lia|reflexivity]
        |exists 2; split; [lia|reflexivity]|exists 3; split; [lia|reflexivity]|exists 4; split; [lia|reflexivity]]. }
  destruct (S f) as (e & He & ->). destruct (S g) as (d & Hd & ->). intros H.
  apply Nat.pow_le_mono_r_iff in H; [|lia].
  exists (2 ^ (e - d)). rewrite <- Nat.pow_add_r. f_equal. lia.
Qed.

Definition same_field (f g : ffield) : Prop := f_path f = f_path g /\ f_kind f = f_kind g.

Lemma same_field_size f g : same_field f g -> field_size f = field_size g.
Proof. intros [_ E]. unfold field_size. rewrite E. reflexivity. Qed.

Lemma assign_offsets_spec fs : forall start placed total,
  assign_offsets fs start = Ret (placed, total) ->
  StronglySorted (fun a b => field_size b <= field_size a) fs ->
  Forall (fun f => Nat.divide (field_size f) start) fs ->
  Forall no_bit fs ->
  start <= total /\
  Forall2 same_field fs placed /\
  Forall (fun f => start <= f_offset f /\ f_offset f + field_size f <= total /\
                   Nat.divide (field_size f) (f_offset f)) placed /\
  ForallOrdPairs (fun f g => f_offset f + field_size f <= f_offset g) placed.
Proof.
  induction fs as [|f fs IH]; intros start placed total H Hs Hd Hn; cbn [assign_offsets] in H.
  - injection H as <- <-. repeat split; constructor.
  - inversion Hs as [|? ? Hs' Hf]; subst. inversion Hd as [|? ? Hdf Hd']; subst.
    inversion Hn as [|? ? Hnf Hn']; subst. rewrite kind_size_field in H by exact Hnf. cbn [bind] in H.
    inv_bind H. destruct a as [r tot]. injection H as <- <-.
    destruct (IH _ _ _ Ha Hs') as (I0 & I1 & I2 & I3); [|exact Hn'|].
    { rewrite Forall_forall in *. intros g Hg. apply Nat.divide_add_r; [apply Hd'; exact Hg|].
      apply field_size_dvd. apply Hf. exact Hg. }
    set (f' := {| f_path := f_path f; f_kind := f_kind f; f_offset := start |}).
    assert (Hsf : field_size f' = field_size f) by reflexivity.
    split; [lia|]. split; [|split].
    + constructor; [split; reflexivity|exact I1].
    + constructor.
      * change (f_offset f') with start. rewrite Hsf. split; [lia|]. split; [exact I0|exact Hdf].
      * eapply Forall_impl; [|exact I2]. cbv beta. intros g (L1 & L2 & L3). split; [lia|auto].
    + constructor; [|exact I3]. rewrite Forall_forall in *. intros g Hg. destruct (I2 _ Hg) as (L1 & _).
      rewrite Hsf. exact L1.
Qed.

Lemma find_container_spec fs i o p :
  find_container fs i = Ret (o, p) -> exists f, In f fs /\ f_kind f = FContainer i p /\ f_offset f = o.
Proof.
  unfold find_container.
  destruct (find (fun f => match f_kind f with FContainer j _ => j =? i | _ => false end) (rev fs)) as [f|] eqn:E;
    [|discriminate].
  apply find_some in E as [Hin Hk]. rewrite <- in_rev in Hin. destruct (f_kind f) eqn:Ek; try discriminate.
  intros H. injection H as <- <-. exists f. apply Nat.eqb_eq in Hk as ->. auto.
Qed.

Lemma bit_fields_spec fs bs r :
  bit_fields_to_fixed fs bs = Ret r ->
  Forall2 (fun b f => f_path f = b_path b /\ exists p, find_container fs (b_index b) = Ret (f_offset f, p) /\
                      f_kind f = FBit p (b_off b) (b_bits b)) bs r.
Proof.
  revert r. induction bs as [|b bs IH]; intros r H; cbn [bit_fields_to_fixed] in H.
  - injection H as <-. constructor.
  - inv_bind H. destruct a as [o p]. inv_bind H. injection H as <-. constructor; [|apply IH; exact Ha0].
    split; [reflexivity|]. exists p. split; [exact Ha|reflexivity].
Qed.

(** ** Index vectors *)

Definition desc (ix : list index) : Prop :=
  StronglySorted (fun a b => path_cmp (i_path a) (i_path b) = Gt) ix.

Lemma path_cmp_gt_lt p q : path_cmp p q = Gt <-> path_cmp q p = Lt.
Proof. rewrite (path_cmp_opp p q). destruct (path_cmp p q); cbn; split; congruence. Qed.

Lemma path_cmp_refl p : path_cmp p p = Eq.
Proof. apply path_cmp_eq. reflexivity. Qed.

Lemma search_from_hit k ix i q :
  desc ix -> forall j x, nth_error ix j = Some x -> i_path x = q -> i = k + j -> search_from k ix q = Ok i.
Proof.
  intros H. revert k i. induction H as [|y ix Hs IH Hf]; intros k i j x Hj Hq Hi; [destruct j; discriminate|].
  cbn [search_from]. destruct j as [|j]; cbn [nth_error] in Hj.
  - injection Hj as ->. subst q. rewrite path_cmp_refl. f_equal. lia.
  - rewrite Forall_forall in Hf. pose proof (Hf _ (nth_error_In _ _ Hj)) as Hgt. rewrite Hq in Hgt. rewrite Hgt.
    eapply IH; [exact Hj|exact Hq|lia].
Qed.

Lemma search_hit ix j x : desc ix -> nth_error ix j = Some x -> search ix (i_path x) = Ok j.
Proof. intros H Hj. eapply search_from_hit; [exact H|exact Hj|reflexivity|reflexivity]. Qed.

Lemma search_from_ok k ix q i : search_from k ix q = Ok i ->
  exists j x, i = k + j /\ nth_error ix j = Some x /\ i_path x = q.
Proof.
  revert k. induction ix as [|y ix IH]; intros k H; cbn [search_from] in H; [discriminate|].
  destruct (path_cmp (i_path y) q) eqn:E; [|discriminate|].
  - injection H as <-. apply path_cmp_eq in E. exists 0, y. rewrite Nat.add_0_r. auto.
  - destruct (IH _ H) as (j & x & -> & Hj & Hx). exists (S j), x. split; [lia|auto].
Qed.

Lemma search_ok ix q i : search ix q = Ok i -> exists x, nth_error ix i = Some x /\ i_path x = q.
Proof. intros H. apply search_from_ok in H as (j & x & -> & Hj & Hx). exists x. auto. Qed.

(** Searching for a proper extension of an entry, when the entries diverge, stops at that entry. *)
Lemma search_from_below k ix q j x :
  desc ix -> ForallOrdPairs (fun a b => diverge (i_path a) (i_path b)) ix ->
  nth_error ix j = Some x -> strictly_extends (i_path x) q -> search_from k ix q = Err (k + j).
Proof.
  intros H. revert k j. induction H as [|y ix Hs IH Hf]; intros k j HF Hj Hq; [destruct j; discriminate|].
  inversion HF as [|? ? Hy HF']; subst. cbn [search_from]. destruct j as [|j]; cbn [nth_error] in Hj.
  - injection Hj as ->. destruct Hq as (s & Hs' & ->). rewrite path_cmp_extends by exact Hs'. f_equal. lia.
  - rewrite Forall_forall in Hf, Hy. pose proof (nth_error_In _ _ Hj) as Hin.
    assert (E : path_cmp (i_path y) q = Gt).
    { destruct (path_cmp (i_path y) q) eqn:E; [| |reflexivity]; exfalso; apply (Hy _ Hin);
      destruct Hq as (s & _ & ->); apply path_cmp_between with (s := s); [|congruence| |congruence];
      rewrite path_cmp_opp, (Hf _ Hin); discriminate. }
    rewrite E. rewrite (IH (S k) j HF' Hj Hq). f_equal. lia.
Qed.

Lemma search_below ix q j x :
  desc ix -> ForallOrdPairs (fun a b => diverge (i_path a) (i_path b)) ix ->
  nth_error ix j = Some x -> strictly_extends (i_path x) q -> search ix q = Err j.
Proof. intros H HF Hj Hq. exact (search_from_below 0 ix q j x H HF Hj Hq). Qed.

Lemma make_indices_In k fs x :
  In x (make_indices k fs) <->
  exists j f, nth_error fs j = Some f /\ x = {| i_path := f_path f; i_fixed := k + j; i_var := 0 |}.
Proof.
  revert k. induction fs as [|f fs IH]; intros k; cbn [make_indices].
  - split; [intros []|]. intros (j & f & H & _). destruct j; discriminate.
  - split.
    + intros [<-|Hin].
      * exists 0, f. rewrite Nat.add_0_r. split; reflexivity.
      * apply IH in Hin as (j & g & Hj & ->). exists (S j), g. split; [exact Hj|]. f_equal. lia.
    + intros (j & g & Hj & ->). destruct j as [|j].
      * injection Hj as ->. left. rewrite Nat.add_0_r. reflexivity.
      * right. apply IH. exists j, g. split; [exact Hj|]. f_equal. lia.
Qed.

Lemma make_indices_paths k fs : map i_path (make_indices k fs) = map f_path fs.
Proof. revert k. induction fs as [|f fs IH]; intros k; cbn [make_indices map]; [reflexivity|]. f_equal. apply IH. Qed.

Lemma desc_nodup ix : desc ix -> NoDup (map i_path ix).
Proof.
  intros H. induction H as [|x ix Hs IH Hf]; cbn [map]; constructor; [|exact IH].
  intros Hin. apply in_map_iff in Hin as (y & Ey & Hy). rewrite Forall_forall in Hf. specialize (Hf _ Hy).
  rewrite Ey, path_cmp_refl in Hf. discriminate.
Qed.

Lemma sorted_indices_desc l : NoDup (map i_path l) ->
  desc (sort_desc (fun l r => match path_cmp (i_path l) (i_path r) with Lt => true | _ => false end) l).
Proof.
  intros Hnd.
  set (less := fun l r : index => match path_cmp (i_path l) (i_path r) with Lt => true | _ => false end).
  assert (Hs : StronglySorted (fun a b => less a b = false) (sort_desc less l)).
  { apply sort_desc_sorted; unfold less.
    - intros a b c H1 H2.
      destruct (path_cmp (i_path a) (i_path c)) eqn:E3; try reflexivity.
      destruct (path_cmp (i_path a) (i_path b)) eqn:E1; [|discriminate|].
      + apply path_cmp_eq in E1. rewrite E1 in E3. rewrite E3 in H2. discriminate.
      + destruct (path_cmp (i_path b) (i_path c)) eqn:E2; [|discriminate|].
        * apply path_cmp_eq in E2. rewrite E2 in E1. congruence.
        * assert (path_cmp (i_path a) (i_path c) = Gt) by (eapply path_cmp_trans; eassumption). congruence.
    - intros a b H. destruct (path_cmp (i_path a) (i_path b)) eqn:E; try discriminate.
      rewrite (path_cmp_opp (i_path a)), E. reflexivity. }
  assert (Hn : NoDup (map i_path (sort_desc less l))).
  { eapply Permutation_NoDup; [|exact Hnd]. apply Permutation_map. symmetry. apply sort_desc_perm. }
  unfold desc. induction Hs as [|a m Hs IH Hf]; constructor.
  - apply IH. inversion Hn; assumption.
  - inversion Hn as [|? ? Ha Hm]; subst. rewrite Forall_forall in *. intros b Hb. specialize (Hf _ Hb). unfold less in Hf.
    destruct (path_cmp (i_path a) (i_path b)) eqn:E; [|discriminate|reflexivity].
    exfalso. apply Ha. apply path_cmp_eq in E. rewrite E. apply in_map. exact Hb.
Qed.

Lemma lookup_fixed_spec ix q fi : lookup_fixed ix q = Ret fi -> exists x, In x ix /\ i_path x = q /\ i_fixed x = fi.
Proof.
  unfold lookup_fixed. destruct (find (fun x => path_eqb (i_path x) q) (rev ix)) as [x|] eqn:E; [|discriminate].
  apply find_some in E as [Hin Hk]. rewrite <- in_rev in Hin. apply path_eqb_eq in Hk.
  intros H. injection H as <-. exists x. auto.
Qed.

Lemma desc_update ix i k : desc ix -> desc (update ix i (set_var k)).
Proof.
  unfold desc. intros H. apply StronglySorted_FOP in H. apply FOP_StronglySorted. rewrite FOP_nth in *.
  intros a b x y Hab Hx Hy. rewrite nth_error_update in Hx, Hy.
  assert (G : forall n z, (if n =? i then option_map (set_var k) (nth_error ix n) else nth_error ix n) = Some z ->
              exists w, nth_error ix n = Some w /\ i_path w = i_path z).
  { intros n z Hz. destruct (n =? i); [|exists z; auto]. destruct (nth_error ix n) as [w|]; [|discriminate].
    injection Hz as <-. exists w. auto. }
  destruct (G _ _ Hx) as (x' & Hx' & <-). destruct (G _ _ Hy) as (y' & Hy' & <-). eapply H; eassumption.
Qed.

Lemma link_vars_spec vs : forall k ix r ix',
  link_vars k vs ix = Ret (r, ix') -> desc ix -> NoDup (map v_path vs) ->
  desc ix' /\
  map i_path ix' = map i_path ix /\ map i_fixed ix' = map i_fixed ix /\
  Forall2 (fun v v' => v_path v' = v_path v /\ v_kind v' = v_kind v /\
                       exists x, In x ix /\ i_path x = v_path v /\ i_fixed x = v_fixed v') vs r /\
  (forall x, In x ix' -> ~ In (i_path x) (map v_path vs) -> In x ix) /\
  (forall j v, nth_error vs j = Some v -> exists x, In x ix' /\ i_path x = v_path v /\ i_var x = k + j).
Proof.
  induction vs as [|v vs IH]; intros k ix r ix' H Hd Hn; cbn [link_vars] in H.
  - injection H as <- <-. split; [exact Hd|]. repeat split; [constructor|auto|]. intros [|j] v Hj; discriminate.
  - destruct (search ix (v_path v)) as [i|] eqn:Es; [|discriminate]. inv_bind H. inv_bind H. destruct a0 as [r' ix''].
    injection H as <- <-. inversion Hn as [|? ? Hv Hn']; subst.
    destruct (IH _ _ _ _ Ha0 (desc_update _ i k Hd) Hn') as (J1 & J2 & J3 & J4 & J5 & J6).
    rewrite map_update in J2 by reflexivity. rewrite map_update in J3 by reflexivity.
    split; [exact J1|]. split; [exact J2|]. split; [exact J3|].
    assert (Hback : forall x, In x (update ix i (set_var k)) -> exists y, In y ix /\ i_path y = i_path x /\ i_fixed y = i_fixed x).
    { intros x Hx. apply In_nth_error in Hx as [n Hx]. rewrite nth_error_update in Hx. destruct (n =? i).
      - destruct (nth_error ix n) as [y|] eqn:Ey; [|discriminate]. injection Hx as <-. exists y.
        split; [eapply nth_error_In; exact Ey|auto].
      - exists x. split; [eapply nth_error_In; exact Hx|auto]. }
    split; [|split].
    + constructor.
      * split; [reflexivity|]. split; [reflexivity|]. apply lookup_fixed_spec. exact Ha.
      * eapply Forall2_impl'; [|exact J4]. cbv beta. intros w w' (E1 & E2 & x & Hx & E3 & E4).
        split; [exact E1|]. split; [exact E2|]. destruct (Hback _ Hx) as (y & Hy & F1 & F2).
        exists y. split; [exact Hy|]. split; congruence.
    + intros x Hx Hnot. cbn [map In] in Hnot.
      assert (Hx' : In x (update ix i (set_var k))) by (apply J5; [exact Hx|tauto]).
      apply In_nth_error in Hx' as [n Hx']. rewrite nth_error_update in Hx'. destruct (Nat.eqb_spec n i) as [En|En].
      * subst n. apply search_ok in Es as (y & Hy & Ey). rewrite Hy in Hx'. injection Hx' as <-. exfalso. apply Hnot.
        left. cbn [i_path set_var]. congruence.
      * eapply nth_error_In. exact Hx'.
    + intros [|j] w Hj; cbn [nth_error] in Hj.
      * injection Hj as <-. apply search_ok in Es as (y & Hy & Ey).
        (* the updated entry survives the later updates *)
        assert (Hp : In (v_path v) (map i_path ix'')).
        { rewrite J2, <- Ey. apply in_map. eapply nth_error_In. exact Hy. }
        apply in_map_iff in Hp as (x & Ex & Hx).
        assert (Hx' : In x (update ix i (set_var k))) by (apply J5; [exact Hx|rewrite Ex; exact Hv]).
        exists x. split; [exact Hx|]. split; [exact Ex|]. rewrite Nat.add_0_r.
        assert (Hu : In (set_var k y) (update ix i (set_var k))).
        { eapply nth_error_In with (n := i). rewrite nth_error_update, Nat.eqb_refl, Hy. reflexivity. }
        assert (x = set_var k y) as ->; [|reflexivity].
        eapply NoDup_map_inj; [apply desc_nodup, (desc_update _ i k Hd)|exact Hx'|exact Hu|].
        cbn [i_path set_var]. congruence.
      * destruct (J6 _ _ Hj) as (x & Hx & E1 & E2). exists x. split; [exact Hx|]. split; [exact E1|]. lia.
Qed.

Lemma align_nat_inv v a r :
  align_nat v a = Ret r ->
  is_pow2 (Z.of_nat a) = true /\ 0 < a /\ (Z.of_nat v + Z.of_nat a < 2 ^ 64)%Z /\ r = align_up v a.
Proof.
  intros H. destruct (is_pow2 (Z.of_nat a)) eqn:E.
  - split; [reflexivity|]. assert (Ha : 0 < a).
    { apply is_pow2_true in E as (k & Hk & Ek). assert (0 < 2 ^ k)%Z by (apply Z.pow_pos_nonneg; lia). lia. }
    split; [exact Ha|]. destruct (Z.lt_ge_cases (Z.of_nat v + Z.of_nat a) (2 ^ 64)) as [Hlt|Hge].
    + split; [exact Hlt|]. rewrite align_nat_value in H by assumption. congruence.
    + exfalso. unfold align_nat, align, wadd in H. rewrite E in H.
      destruct (Z.ltb_spec (Z.of_nat v + Z.of_nat a) (2 ^ 64)); [lia|]. discriminate.
  - rewrite align_nat_not_pow2 in H by exact E. discriminate.
Qed.

(** ** What a finished layout looks like *)

Definition kind_rel (k : fk) (f : fkind) : Prop :=
  match k, f with
  | KPrim p, FPrim p' => p' = p
  | KStr, FLength => True
  | KTag cs, FBit _ _ n => n = tag_bits cs
  | _, _ => False
  end.

Record lay_ok (fl : list (path * fk)) (l : layout) : Prop := {
  lo_paths : Permutation (map f_path (l_fixed l)) (map fst fl);
  lo_kinds : Forall (fun f => exists k, In (f_path f, k) fl /\ kind_rel k (f_kind f)) (l_fixed l);
  lo_disj : ForallOrdPairs no_overlap (l_fixed l);
  lo_place : Forall (well_placed (l_var_off l)) (l_fixed l);
  lo_vars : exists fv, Permutation fv (filter is_var fl) /\ Forall2 var_rel fv (l_vars l);
  lo_vfix : Forall (fun v => exists f, nth_error (l_fixed l) (v_fixed v) = Some f /\ f_path f = v_path v) (l_vars l);
  lo_desc : desc (l_indices l);
  lo_ixp : Permutation (map i_path (l_indices l)) (map f_path (l_fixed l));
  lo_ixf : Forall (fun x => exists f, nth_error (l_fixed l) (i_fixed x) = Some f /\ f_path f = i_path x) (l_indices l);
  lo_ixv : forall k v, nth_error (l_vars l) k = Some v -> exists x, In x (l_indices l) /\ i_path x = v_path v /\ i_var x = k;
  lo_align : exists e, e <= 4 /\ l_align l = 2 ^ e
}.

Definition pow2_16 (n : nat) : Prop := exists e, e <= 4 /\ n = 2 ^ e.

Lemma pow2_16_max a b : pow2_16 a -> pow2_16 b -> pow2_16 (Nat.max a b).
Proof. intros Ha Hb. destruct (Nat.max_spec a b) as [[_ ->]|[_ ->]]; assumption. Qed.

Lemma pow2_16_prim p : pow2_16 (prim_size p).
Proof.
  destruct p; first [exists 0; split; [lia|reflexivity]|exists 1; split; [lia|reflexivity]
    |exists 2; split; [lia|reflexivity]|exists 3; split; [lia|reflexivity]|exists 4; split; [lia|reflexivity]].
Qed.

Lemma pow2_16_field f : pow2_16 (field_size f).
Proof.
  unfold field_size. destruct (f_kind f); try apply pow2_16_prim. exists 2. split; [lia|reflexivity].
Qed.

Lemma pow2_16_1 : pow2_16 1.
Proof. exists 0. split; [lia|reflexivity]. Qed.

Lemma pow2_16_fold l : forall a, pow2_16 a -> Forall pow2_16 l -> pow2_16 (fold_left Nat.max l a).
Proof.
  induction l as [|b l IH]; intros a Ha HF; cbn [fold_left]; [exact Ha|].
  inversion HF; subst. apply IH; [apply pow2_16_max; assumption|assumption].
Qed.

Lemma vfield_align_pow2 v :
  (forall cases c, v_kind v = VEnum cases -> In c cases -> pow2_16 (l_align c)) -> pow2_16 (vfield_align v).
Proof.
  intros H. unfold vfield_align. destruct (v_kind v) as [|[|c cs]] eqn:E; [apply pow2_16_1|apply pow2_16_1|].
  apply pow2_16_fold; [eapply H; [reflexivity|left; reflexivity]|].
  rewrite Forall_forall. intros n Hn. apply in_map_iff in Hn as (d & <- & Hd).
  eapply H; [reflexivity|right; exact Hd].
Qed.

Lemma no_overlap_sym f g : no_overlap f g -> no_overlap g f.
Proof.
  intros [[H|H]|(p & o & n & o' & n' & H1 & H2 & H3 & H4)].
  - left. right. exact H.
  - left. left. exact H.
  - right. exists p, o', n', o, n. repeat split; [exact H2|exact H1|congruence|tauto].
Qed.

Lemma flat_fixed_no_bit fl : Forall no_bit (flat_map flat_fixed fl).
Proof.
  induction fl as [|[q [p| |cs]] fl IH]; cbn [flat_map flat_fixed app]; try constructor; try exact I; try exact IH.
Qed.

Lemma finish_layout_ok fl vs l :
  NoDup (map fst fl) ->
  Forall2 var_rel (filter is_var fl) vs ->
  (forall v cases c, In v vs -> v_kind v = VEnum cases -> In c cases -> pow2_16 (l_align c)) ->
  finish_layout (flat_map flat_fixed fl, flat_map flat_bits fl, vs) = Ret l ->
  lay_ok fl l.
Proof.
  intros Hnd Hvs Hal H. unfold finish_layout in H. inv_bind H. destruct a as [bits conts].
  unfold allocate_bitfields in Ha. inv_bind Ha. destruct a as [r cs]. injection Ha as <- <-. rename Ha0 into Halloc.
  destruct (alloc_spec _ _ _ _ Halloc (Forall_nil _)) as (A1 & _ & A3 & A4 & A5 & A6).
  set (bs := flat_map flat_bits fl) in *. set (fx := flat_map flat_fixed fl) in *.
  set (sbs := sort_desc (fun a b => b_bits a <? b_bits b) bs) in *.
  set (conts := cont_fields 0 cs) in *.
  set (sorted := sort_desc (fun l0 r0 => field_size l0 <? field_size r0) (fx ++ conts)) in *.
  set (vars := sort_desc (fun l0 r0 => vfield_align l0 <? vfield_align r0) vs) in *.
  inv_bind H. destruct a as [placed size]. rename Ha into Hoff.
  inv_bind H. rename a into fa. rename Ha into Hfa. cbv zeta in H.
  inv_bind H. rename a into size'. rename Ha into Hal'.
  inv_bind H. rename a into bfs. rename Ha into Hbfs.
  set (fixed := filter (fun f => negb (is_container f)) placed ++ bfs) in *.
  set (ix0 := sort_desc (fun l0 r0 => match path_cmp (i_path l0) (i_path r0) with Lt => true | _ => false end)
                (make_indices 0 fixed)) in *.
  inv_bind H. destruct a as [vars' ix]. rename Ha into Hlink. injection H as <-.
  (* the sorted fixed fields and their offsets *)
  assert (Hperm : Permutation sorted (fx ++ conts)) by apply sort_desc_perm.
  assert (Hnb : Forall no_bit sorted).
  { eapply Permutation_Forall; [symmetry; exact Hperm|]. apply Forall_app. split; [apply flat_fixed_no_bit|].
    rewrite Forall_forall. intros f Hf. apply cont_fields_In in Hf as (j & c & _ & ->). exact I. }
  destruct (assign_offsets_spec _ _ _ _ Hoff) as (_ & O1 & O2 & O3).
  { apply sort_desc_key. }
  { rewrite Forall_forall. intros f _. apply Nat.divide_0_r. }
  { exact Hnb. }
  apply align_nat_inv in Hal' as (_ & Hva & _ & Esize).
  assert (Hsz : size <= size') by (rewrite Esize; apply align_up_ge; exact Hva).
  pose proof (bit_fields_spec _ _ _ Hbfs) as HB.
  (* a placed field comes from the unrolled ones or is a container *)
  assert (Horig : forall f, In f placed -> exists g, In g (fx ++ conts) /\ same_field g f).
  { intros f Hf. destruct (Forall2_in_r _ _ _ _ O1 Hf) as (g & Hg & Hs). exists g.
    split; [eapply Permutation_in; [exact Hperm|exact Hg]|exact Hs]. }
  assert (Hfx : forall g, In g fx -> exists k, In (f_path g, k) fl /\ kind_rel k (f_kind g) /\ is_container g = false).
  { intros g Hg. apply in_flat_map in Hg as ([q k] & Hin & Hg).
    destruct k as [p| |cs']; cbn [flat_fixed] in Hg; [destruct Hg as [<-|[]]|destruct Hg as [<-|[]]|destruct Hg];
      eexists; (split; [exact Hin|]); split; exact I || reflexivity. }
  assert (Hplain : forall f, In f placed -> is_container f = false ->
            exists k, In (f_path f, k) fl /\ kind_rel k (f_kind f)).
  { intros f Hf Hc. destruct (Horig _ Hf) as (g & Hg & [E1 E2]). apply in_app_or in Hg as [Hg|Hg].
    - destruct (Hfx _ Hg) as (k & Hk1 & Hk2 & _). exists k. rewrite <- E1, <- E2. auto.
    - apply cont_fields_In in Hg as (j & c & _ & ->). unfold is_container in Hc. rewrite <- E2 in Hc. discriminate. }
  assert (Hcont : forall f i p, In f placed -> f_kind f = FContainer i p ->
            exists c, nth_error cs i = Some c /\ p = c_prim c).
  { intros f i p Hf Hk. destruct (Horig _ Hf) as (g & Hg & [E1 E2]). apply in_app_or in Hg as [Hg|Hg].
    - destruct (Hfx _ Hg) as (k & _ & _ & Hc). unfold is_container in Hc. rewrite E2, Hk in Hc. discriminate.
    - apply cont_fields_In in Hg as (j & c & Hj & ->). rewrite Hk in E2. cbn [cont_field f_kind] in E2.
      cbn [Nat.add] in E2. injection E2 as E3 E4. subst j p. exists c. auto. }
  assert (Hoff_in : forall f, In f placed -> f_offset f + field_size f <= size /\ Nat.divide (field_size f) (f_offset f)).
  { rewrite Forall_forall in O2. intros f Hf. destruct (O2 _ Hf) as (_ & H1 & H2). auto. }
  assert (Hdisj : forall f g, In f placed -> In g placed -> f <> g -> bytes_disjoint f g).
  { intros f g Hf Hg Hne. apply (FOP_In bytes_disjoint placed); [|apply (FOP_impl _ _ _) with (2 := O3)|exact Hf|exact Hg|exact Hne].
    - intros x y [Hx|Hx]; [right|left]; exact Hx.
    - intros x y _ _ Hx. left. exact Hx. }
  (* each tag field *)
  assert (Htag : forall f, In f bfs -> exists b c g,
            In b r /\ f_path f = b_path b /\ f_kind f = FBit (c_prim c) (b_off b) (b_bits b) /\
            In g placed /\ f_kind g = FContainer (b_index b) (c_prim c) /\ f_offset g = f_offset f /\
            field_size f = field_size g /\ is_unsigned (c_prim c) = true /\ b_off b + b_bits b <= 8 * prim_size (c_prim c)).
  { intros f Hf. destruct (Forall2_in_r _ _ _ _ HB Hf) as (b & Hb & E1 & p & Hfc & E2).
    apply find_container_spec in Hfc as (g & Hg & Eg & Eo). destruct (Hcont _ _ _ Hg Eg) as (c & Hc & ->).
    exists b, c, g. rewrite Forall_forall in A5, A1. destruct (A5 _ Hb) as [(c' & Hc' & Hle) _].
    assert (c' = c) by congruence. subst c'. destruct (A1 _ (nth_error_In _ _ Hc)) as [Hu Hs].
    repeat split; try assumption; [unfold field_size; rewrite E2, Eg; reflexivity|lia]. }
  (* paths *)
  assert (Hpp : Permutation (map f_path fixed) (map fst fl)).
  { unfold fixed. rewrite map_app.
    assert (P1 : Permutation (map f_path (filter (fun f => negb (is_container f)) placed)) (map f_path fx)).
    { assert (Q1 : map f_path (filter (fun f => negb (is_container f)) placed) =
                   map f_path (filter (fun f => negb (is_container f)) sorted)).
      { clear - O1. induction O1 as [|g f ls lp [E1 E2] O1 IH]; [reflexivity|]. cbn [filter].
        assert (E : is_container g = is_container f) by (unfold is_container; rewrite E2; reflexivity).
        rewrite E. destruct (is_container f); cbn [negb map]; rewrite ?IH, ?E1; reflexivity. }
      rewrite Q1. apply Permutation_map.
      assert (Q2 : Permutation (filter (fun f => negb (is_container f)) sorted)
                               (filter (fun f => negb (is_container f)) (fx ++ conts))).
      { clear - Hperm. induction Hperm; cbn [filter].
        - reflexivity.
        - destruct (negb (is_container x)); [constructor|]; assumption.
        - destruct (negb (is_container x)), (negb (is_container y)); try reflexivity. apply perm_swap.
        - etransitivity; eassumption. }
      rewrite Q2, filter_app.
      replace (filter (fun f => negb (is_container f)) conts) with (@nil ffield).
      - rewrite app_nil_r. replace (filter (fun f => negb (is_container f)) fx) with fx; [reflexivity|].
        symmetry. clear - Hfx. induction fx as [|g fx IH]; [reflexivity|]. cbn [filter].
        destruct (Hfx g ltac:(left; reflexivity)) as (_ & _ & _ & ->). cbn [negb]. f_equal. apply IH.
        intros h Hh. apply Hfx. right. exact Hh.
      - symmetry. unfold conts. generalize 0. clear. induction cs as [|c cs IH]; intros n; [reflexivity|].
        cbn [cont_fields filter cont_field is_container f_kind negb]. apply IH. }
    assert (P2 : Permutation (map f_path bfs) (map b_path bs)).
    { assert (Q : map f_path bfs = map b_path r).
      { clear - HB. induction HB as [|b f lb lf [E _] HB IH]; [reflexivity|]. cbn [map]. rewrite E, IH. reflexivity. }
      rewrite Q, A3. apply Permutation_map. apply sort_desc_perm. }
    rewrite P1, P2. unfold fx, bs. clear.
    induction fl as [|[q [p| |cs]] fl IH]; cbn [flat_map flat_fixed flat_bits map app f_path b_path fst].
    - reflexivity.
    - constructor. exact IH.
    - constructor. exact IH.
    - rewrite <- Permutation_middle. constructor. exact IH. }
  assert (Hfnd : NoDup (map f_path fixed)) by (eapply Permutation_NoDup; [symmetry; exact Hpp|exact Hnd]).
  assert (Hd0 : desc ix0) by (apply sorted_indices_desc; rewrite make_indices_paths; exact Hfnd).
  (* variable fields *)
  assert (Hvp : Permutation vars vs) by apply sort_desc_perm.
  destruct (Forall2_perm_l _ _ _ _ Hvs (Permutation_sym Hvp)) as (fv & Hfv & HFv).
  assert (Evp : map v_path vars = map fst fv).
  { clear - HFv. induction HFv as [|e v le lv [E _] H IH]; [reflexivity|]. cbn [map]. congruence. }
  assert (Hvnd : NoDup (map v_path vars)).
  { rewrite Evp. eapply Permutation_NoDup; [apply Permutation_map; exact Hfv|]. apply NoDup_map_filter. exact Hnd. }
  destruct (link_vars_spec _ _ _ _ _ Hlink Hd0 Hvnd) as (K1 & K2 & K3 & K4 & K5 & K6).
  assert (Hix0 : forall x, In x ix0 -> exists f, nth_error fixed (i_fixed x) = Some f /\ f_path f = i_path x).
  { intros x Hx. apply (Permutation_in _ (sort_desc_perm _ _)) in Hx. apply make_indices_In in Hx as (j & f & Hj & ->).
    exists f. auto. }
  constructor; cbn [l_fixed l_vars l_indices l_align l_var_off].
  - exact Hpp.
  - unfold fixed. apply Forall_app. split; rewrite Forall_forall.
    + intros f Hf. apply filter_In in Hf as [Hf Hc]. apply Hplain; [exact Hf|]. destruct (is_container f); [discriminate|reflexivity].
    + intros f Hf. destruct (Htag _ Hf) as (b & c & g & Hb & E1 & E2 & _).
      assert (Hin : In (b_path b, b_bits b) (combine (map b_path r) (map b_bits r))).
      { clear - Hb. induction r as [|b' r IH]; [destruct Hb|]. cbn [map combine].
        destruct Hb as [<-|Hb]; [left; reflexivity|right; apply IH; exact Hb]. }
      rewrite A3, A4 in Hin.
      assert (Hin2 : exists b0, In b0 sbs /\ b_path b0 = b_path b /\ b_bits b0 = b_bits b).
      { clear - Hin. induction sbs as [|b0 sbs IH]; [destruct Hin|]. cbn [map combine] in Hin. destruct Hin as [E|Hin].
        - injection E as E1 E2. exists b0. split; [left; reflexivity|auto].
        - destruct (IH Hin) as (b1 & H1 & H2). exists b1. split; [right; exact H1|exact H2]. }
      destruct Hin2 as (b0 & Hb0 & F1 & F2). apply (Permutation_in _ (sort_desc_perm _ _)) in Hb0.
      apply in_flat_map in Hb0 as ([q k] & Hk & Hb0). destruct k as [p| |cs']; cbn [flat_bits] in Hb0; try (destruct Hb0; fail).
      destruct Hb0 as [<-|[]]. cbn [b_path b_bits] in F1, F2. exists (KTag cs'). split.
      * rewrite E1, <- F1. exact Hk.
      * rewrite E2. cbn [kind_rel]. congruence.
  - unfold fixed. apply FOP_app.
    + apply FOP_filter. apply (FOP_impl _ _ _) with (2 := O3). intros x y _ _ Hx. left. left. exact Hx.
    + apply FOP_nth. intros i j f g Hij Hf Hg.
      destruct (Forall2_nth_r _ _ _ _ _ HB Hf) as (b & Hb & E1 & p & Fb & E2).
      destruct (Forall2_nth_r _ _ _ _ _ HB Hg) as (b' & Hb' & E1' & p' & Fb' & E2').
      pose proof (proj1 (FOP_nth _ _) A6 i j b b' Hij Hb Hb') as Hbef.
      destruct (Nat.eq_dec (b_index b) (b_index b')) as [E|Hne].
      * right. rewrite E in Fb. rewrite Fb in Fb'. injection Fb' as Eo Ep. subst p'.
        exists p, (b_off b), (b_bits b), (b_off b'), (b_bits b'). repeat split; auto.
      * left. apply find_container_spec in Fb as (c & Hc & Ec & Eo). apply find_container_spec in Fb' as (c' & Hc' & Ec' & Eo').
        assert (Hcc : c <> c') by congruence. pose proof (Hdisj _ _ Hc Hc' Hcc) as Hd.
        unfold bytes_disjoint in *. unfold field_size in *. rewrite E2, E2'. rewrite Ec, Ec' in Hd. lia.
    + intros f g Hf Hg. left. apply filter_In in Hf as [Hf Hc]. destruct (Htag _ Hg) as (b & c & h & _ & _ & _ & Hh & Ek & Eo & Es & _).
      assert (Hne : f <> h). { intros ->. unfold is_container in Hc. rewrite Ek in Hc. discriminate. }
      pose proof (Hdisj _ _ Hf Hh Hne) as Hd. unfold bytes_disjoint in *. rewrite Es, <- Eo. exact Hd.
  - unfold fixed. apply Forall_app. split; rewrite Forall_forall.
    + intros f Hf. apply filter_In in Hf as [Hf Hc]. destruct (Hoff_in _ Hf) as [H1 H2]. split; [lia|]. split; [exact H2|].
      assert (Hn : no_bit f).
      { destruct (Forall2_in_r _ _ _ _ O1 Hf) as (g & Hg & [_ E]). rewrite Forall_forall in Hnb. specialize (Hnb _ Hg).
        unfold no_bit in *. rewrite <- E. exact Hnb. }
      unfold no_bit in Hn. unfold is_container in Hc. destruct (f_kind f); try exact I; [discriminate|destruct Hn].
    + intros f Hf. destruct (Htag _ Hf) as (b & c & g & _ & _ & E2 & Hg & Ek & Eo & Es & Hu & Hle).
      destruct (Hoff_in _ Hg) as [H1 H2]. split; [rewrite Es, <- Eo; lia|]. split; [rewrite Es, <- Eo; exact H2|].
      rewrite E2. auto.
  - exists fv. split; [symmetry; exact Hfv|].
    clear - HFv K4. revert vars' K4. induction HFv as [|e v le lv [E1 E2] H IH]; intros vars' K4; inversion K4 as [|? ? ? ? HR HK]; subst; constructor.
    + destruct HR as (F1 & F2 & _). split; [congruence|]. rewrite F2. exact E2.
    + apply IH. exact HK.
  - rewrite Forall_forall. intros v Hv. destruct (Forall2_in_r _ _ _ _ K4 Hv) as (w & Hw & E1 & _ & x & Hx & E2 & E3).
    destruct (Hix0 _ Hx) as (f & Hf & Ef). exists f. rewrite <- E3. split; [exact Hf|congruence].
  - exact K1.
  - rewrite K2. unfold ix0. rewrite <- (make_indices_paths 0 fixed). apply Permutation_map. apply sort_desc_perm.
  - rewrite Forall_forall. intros x Hx.
    assert (Hc : In (i_path x, i_fixed x) (combine (map i_path ix) (map i_fixed ix))).
    { clear - Hx. induction ix as [|y ix IH]; [destruct Hx|]. cbn [map combine].
      destruct Hx as [<-|Hx]; [left; reflexivity|right; apply IH; exact Hx]. }
    rewrite K2, K3 in Hc.
    assert (Hy : exists y, In y ix0 /\ i_path y = i_path x /\ i_fixed y = i_fixed x).
    { clear - Hc. induction ix0 as [|y l IH]; [destruct Hc|]. cbn [map combine] in Hc. destruct Hc as [E|Hc].
      - injection E as E1 E2. exists y. split; [left; reflexivity|auto].
      - destruct (IH Hc) as (z & H1 & H2). exists z. split; [right; exact H1|exact H2]. }
    destruct Hy as (y & Hy & E1 & E2). destruct (Hix0 _ Hy) as (f & Hf & Ef). exists f.
    rewrite <- E2. split; [exact Hf|congruence].
  - intros k v Hv. destruct (Forall2_nth_r _ _ _ _ _ K4 Hv) as (w & Hw & E1 & _).
    destruct (K6 _ _ Hw) as (x & Hx & F1 & F2). exists x. split; [exact Hx|]. split; [congruence|exact F2].
  - apply pow2_16_max.
    + destruct placed as [|f placed']; [injection Hfa as <-; apply pow2_16_1|].
      inversion O1 as [|g ? ? ? [_ Ek] _ E3]; subst. rewrite <- E3 in Hnb. inversion Hnb as [|? ? Hg _]; subst.
      assert (Hn : no_bit f) by (unfold no_bit in *; rewrite <- Ek; exact Hg).
      rewrite kind_size_field in Hfa by exact Hn. injection Hfa as <-. apply pow2_16_field.
    + destruct vars as [|v vars0] eqn:Ev; [apply pow2_16_1|]. apply vfield_align_pow2. intros cases c Hk Hc.
      eapply Hal; [|exact Hk|exact Hc]. eapply Permutation_in; [exact Hvp|]. left. reflexivity.
Qed.

(** ** Every layout *)

Lemma in_list_sum {A} (g : A -> nat) l a : In a l -> g a <= list_sum (map g l).
Proof.
  induction l as [|b l IH]; intros Hin; [destruct Hin|]. cbn [map list_sum fold_right].
  change (fold_right Nat.add 0 (map g l)) with (list_sum (map g l)).
  destruct Hin as [->|Hin]; [lia|]. specialize (IH Hin). lia.
Qed.

Lemma flat_members_In {A} (g : A -> ty) l q k e :
  In e (flat_members (fun a => flat (g a)) l q k) -> exists a q', In a l /\ In e (flat (g a) q').
Proof.
  revert k. induction l as [|a l IH]; intros k Hin; cbn [flat_members] in Hin; [destruct Hin|].
  apply in_app_or in Hin as [Hin|Hin].
  - exists a, (q ++ [k]). split; [left; reflexivity|exact Hin].
  - destruct (IH _ Hin) as (b & q' & Hb & He). exists b, q'. split; [right; exact Hb|exact He].
Qed.

Lemma flat_tag_size t : forall q e cs c, In (e, KTag cs) (flat t q) -> In c cs -> ty_size (snd c) < ty_size t.
Proof.
  induction t using ty_ind'; intros q e cs' c Hin Hc; cbn [flat] in Hin.
  - destruct Hin.
  - destruct Hin as [E|[]]. discriminate.
  - destruct Hin as [E|[]]. discriminate.
  - apply (flat_members_In (fun t => t)) in Hin as (t & q' & Ht & Hin). rewrite Forall_forall in H.
    specialize (H _ Ht _ _ _ _ Hin Hc). cbn [ty_size]. pose proof (in_list_sum ty_size _ _ Ht). lia.
  - apply (flat_members_In (fun f => snd f)) in Hin as (t & q' & Ht & Hin). rewrite Forall_forall in H.
    specialize (H _ Ht _ _ _ _ Hin Hc). cbn [ty_size].
    pose proof (in_list_sum (fun f : str * ty => ty_size (snd f)) _ _ Ht). cbv beta in *. lia.
  - destruct Hin as [E|[]]. injection E as <- <-. cbn [ty_size].
    pose proof (in_list_sum (fun f : str * ty => ty_size (snd f)) _ _ Hc). cbv beta in *. lia.
Qed.

(** Induction over types that also covers the payload types of the enums they contain. *)
Lemma ty_payload_ind (P : ty -> Prop) :
  (forall t, (forall q e cs c, In (e, KTag cs) (flat t q) -> In c cs -> P (snd c)) -> P t) -> forall t, P t.
Proof.
  intros H t. remember (ty_size t) as n eqn:En. revert t En.
  induction n as [n IH] using lt_wf_ind. intros t ->. apply H. intros q e cs c Hin Hc.
  eapply IH; [|reflexivity]. eapply flat_tag_size; eassumption.
Qed.

(** A variable field of a layout of [t] and what it stands for. *)
Lemma var_rel_enum fl vs v cases c :
  Forall2 var_rel (filter is_var fl) vs -> In v vs -> v_kind v = VEnum cases -> In c cases ->
  exists cs cse i, In (v_path v, KTag cs) fl /\ nth_error cs i = Some cse /\ nth_error cases i = Some c /\
                   calculate_layout (snd cse) (v_path v ++ [i]) = Ret c.
Proof.
  intros Hvs Hv Hk Hc. destruct (Forall2_in_r _ _ _ _ Hvs Hv) as ([e k] & He & E1 & E2). cbn [fst snd] in *.
  apply filter_In in He as [He _]. destruct k as [p| |cs]; [destruct E2|congruence|].
  destruct E2 as (ls & E2 & Hne & Hls). assert (ls = cases) by congruence. subst ls.
  apply In_nth_error in Hc as [i Hi]. destruct (members_nth _ _ _ _ _ _ _ Hls Hi) as (cse & Hcse & Hl).
  exists cs, cse, i. rewrite E1. auto.
Qed.

Lemma calculate_layout_ok t : forall q l, calculate_layout t q = Ret l -> lay_ok (flat t q) l.
Proof.
  induction t as [t IH] using ty_payload_ind. intros q l H. unfold calculate_layout in H. inv_bind H.
  destruct a as [[fx bs] vs]. destruct (unroll_flat t q fx bs vs Ha) as (-> & -> & Hvs).
  eapply finish_layout_ok; [apply flat_nodup|exact Hvs| |exact H].
  intros v cases c Hv Hk Hc. destruct (var_rel_enum _ _ _ _ _ Hvs Hv Hk Hc) as (cs & cse & i & H1 & H2 & _ & H4).
  apply (lo_align _ _ (IH _ _ _ cse H1 (nth_error_In _ _ H2) _ _ H4)).
Qed.

Lemma lay_ok_enum fl l v cases c :
  lay_ok fl l -> In v (l_vars l) -> v_kind v = VEnum cases -> In c cases ->
  exists cs cse i, In (v_path v, KTag cs) fl /\ nth_error cs i = Some cse /\ nth_error cases i = Some c /\
                   calculate_layout (snd cse) (v_path v ++ [i]) = Ret c.
Proof.
  intros Hl Hv Hk Hc. destruct (lo_vars _ _ Hl) as (fv & Hp & HF).
  destruct (Forall2_in_r _ _ _ _ HF Hv) as ([e k] & He & E1 & E2). cbn [fst snd] in *.
  apply (Permutation_in _ Hp) in He. apply filter_In in He as [He _]. destruct k as [p| |cs]; [destruct E2|congruence|].
  destruct E2 as (ls & E2 & Hne & Hls). assert (ls = cases) by congruence. subst ls.
  apply In_nth_error in Hc as [i Hi]. destruct (members_nth _ _ _ _ _ _ _ Hls Hi) as (cse & Hcse & Hl').
  exists cs, cse, i. rewrite E1. auto.
Qed.

(** A property of layouts that holds for all computed layouts holds everywhere in them. *)
Lemma everywhere_calculated (P : layout -> Prop) :
  (forall t q l, calculate_layout t q = Ret l -> P l) ->
  forall t q l, calculate_layout t q = Ret l -> everywhere P l.
Proof.
  intros HP t. induction t as [t IH] using ty_payload_ind. intros q l H. constructor; [eapply HP; exact H|].
  intros v cases c Hv Hk Hc.
  destruct (lay_ok_enum _ _ _ _ _ (calculate_layout_ok _ _ _ H) Hv Hk Hc) as (cs & cse & i & H1 & H2 & _ & H4).
  eapply IH; [exact H1|eapply nth_error_In; exact H2|exact H4].
Qed.
