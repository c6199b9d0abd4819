(** * The order of fields and the packing of tags *)

From Coq Require Import Permutation Sorted ZifyBool ZifyNat ZifyN.
From Verif Require Import Base BaseFacts UtilModel UtilSpec UtilProofs StrModel TypesModel TypesSpec TypesProofs.
From Verif Require Import MarshalModel MarshalSpec ListFacts LayoutProofs FieldProofs MarshalMore FormatSpec FormatBits.

(** ** Stable sorting *)

Section Stable.
Context {A : Type} (key : A -> nat) (R : A -> A -> Prop).
Definition ranked (a b : A) : Prop := key b < key a \/ key a = key b /\ R a b.

Lemma insert_stable a l : Forall (R a) l -> ForallOrdPairs ranked l ->
  ForallOrdPairs ranked (insert_desc (fun a b => key a <? key b) a l).
Proof.
  induction l as [|b l IH]; intros Hr Hf; cbn [insert_desc].
  - repeat constructor.
  - inversion Hr as [|? ? Hb Hr']; subst. inversion Hf as [|? ? Hbl Hf']; subst.
    destruct (Nat.ltb_spec (key a) (key b)) as [Hlt|Hge].
    + constructor; [|apply IH; assumption]. rewrite Forall_forall in *. intros x Hx.
      apply (Permutation_in _ (insert_desc_perm _ a l)) in Hx. destruct Hx as [<-|Hx]; [left; exact Hlt|apply Hbl; exact Hx].
    + constructor; [|exact Hf]. constructor.
      * unfold ranked. destruct (Nat.eq_dec (key a) (key b)); [right; auto|left; lia].
      * rewrite Forall_forall in *. intros x Hx. specialize (Hbl _ Hx). specialize (Hr' _ Hx). unfold ranked in *.
        destruct (Nat.eq_dec (key a) (key x)); [right; auto|left; lia].
Qed.

Lemma sort_stable l : ForallOrdPairs R l -> ForallOrdPairs ranked (sort_desc (fun a b => key a <? key b) l).
Proof.
  induction 1 as [|a l Ha Hl IH]; cbn [sort_desc]; [constructor|]. apply insert_stable; [|exact IH].
  rewrite Forall_forall in *. intros x Hx. apply Ha. eapply Permutation_in; [apply sort_desc_perm|exact Hx].
Qed.
End Stable.

(** ** Paths in the order of the type *)

Lemma before_snoc q i j s r : i < j -> before ((q ++ [i]) ++ s) ((q ++ [j]) ++ r).
Proof. intros H. exists q, i, j, s, r. rewrite <- !app_assoc. auto. Qed.

Lemma flat_order t : forall q, ForallOrdPairs (fun e f => before (fst e) (fst f)) (flat t q).
Proof.
  assert (G : forall A (g : A -> ty) l,
    Forall (fun a => forall q, ForallOrdPairs (fun e f => before (fst e) (fst f)) (flat (g a) q)) l ->
    forall q k, ForallOrdPairs (fun e f => before (fst e) (fst f)) (flat_members (fun a => flat (g a)) l q k)).
  { intros A g l HF. induction HF as [|a l Ha Hl IH]; intros q k; cbn [flat_members]; [constructor|].
    apply FOP_app; [apply Ha|apply IH|]. intros e f He Hf.
    destruct (flat_extends _ _ _ He) as [s Hs]. destruct (flat_members_ge _ _ _ _ _ Hf) as (j & Hj & [r Hr]).
    rewrite Hs, Hr. apply before_snoc. lia. }
  induction t using ty_ind'; intros q; cbn [flat]; try (repeat constructor; fail).
  - apply (G _ (fun t => t)). exact H.
  - apply (G _ (fun f => snd f)). exact H.
Qed.

(** Order in which fields and containers are given to the sort. *)
Definition given (f g : ffield) : Prop :=
  match f_kind f, f_kind g with
  | FContainer i _, FContainer j _ => i < j
  | FContainer _ _, _ => False
  | _, FContainer _ _ => True
  | _, _ => before (f_path f) (f_path g)
  end.

Lemma flat_fixed_In fl g : In g (flat_map flat_fixed fl) ->
  exists e, In e fl /\ f_path g = fst e /\ (f_kind g = FLength \/ exists p, f_kind g = FPrim p).
Proof.
  intros H. apply in_flat_map in H as ([q k] & Hin & H). exists (q, k). split; [exact Hin|].
  destruct k; cbn [flat_fixed] in H; [destruct H as [<-|[]]; split; [reflexivity|right; eexists; reflexivity]|destruct H as [<-|[]]; auto|destruct H].
Qed.

Lemma given_fields fl : ForallOrdPairs (fun e f => before (fst e) (fst f)) fl -> ForallOrdPairs given (flat_map flat_fixed fl).
Proof.
  induction 1 as [|e fl He Hfl IH]; cbn [flat_map]; [constructor|]. apply FOP_app; [|exact IH|].
  - destruct e as [q [p| |cs]]; cbn [flat_fixed]; repeat constructor.
  - intros f g Hf Hg. rewrite Forall_forall in He. destruct (flat_fixed_In _ _ Hg) as (e' & He' & Ep & Ek).
    specialize (He _ He'). unfold given. rewrite Ep.
    destruct e as [q [p| |cs]]; cbn [flat_fixed] in Hf; [destruct Hf as [<-|[]]|destruct Hf as [<-|[]]|destruct Hf];
      cbn [f_kind f_path fst] in *; destruct Ek as [->|[p' ->]]; exact He.
Qed.

Lemma given_containers cs : forall k, ForallOrdPairs given (cont_fields k cs).
Proof.
  induction cs as [|c cs IH]; intros k; cbn [cont_fields]; [constructor|]. constructor; [|apply IH].
  rewrite Forall_forall. intros f Hf. apply cont_fields_In in Hf as (j & d & _ & ->). cbn. lia.
Qed.

Lemma given_all fl cs : ForallOrdPairs (fun e f => before (fst e) (fst f)) fl ->
  ForallOrdPairs given (flat_map flat_fixed fl ++ cont_fields 0 cs).
Proof.
  intros H. apply FOP_app; [apply given_fields; exact H|apply given_containers|].
  intros f g Hf Hg. destruct (flat_fixed_In _ _ Hf) as (e & _ & _ & Ek). apply cont_fields_In in Hg as (j & d & _ & ->).
  unfold given. cbn [cont_field f_kind]. destruct Ek as [->|[p ->]]; exact I.
Qed.

(** ** Offsets without gaps *)

Lemma assign_dense fs : forall start placed total,
  assign_offsets fs start = Ret (placed, total) -> Forall no_bit fs ->
  start <= total /\
  forall i, start <= i < total <-> exists f, In f placed /\ f_offset f <= i < f_offset f + field_width f.
Proof.
  induction fs as [|f fs IH]; intros start placed total H Hn; cbn [assign_offsets] in H.
  - injection H as <- <-. split; [lia|]. intros i. split; [lia|]. intros (f & [] & _).
  - inversion Hn as [|? ? Hf Hn']; subst. rewrite kind_size_field in H by exact Hf. cbn [bind] in H. inv_bind H.
    destruct a as [r tot]. injection H as <- <-. destruct (IH _ _ _ Ha Hn') as [Hle I1].
    rewrite field_width_size in *. split; [lia|]. intros i. split.
    + intros Hi. destruct (Nat.lt_ge_cases i (start + field_width f)).
      * eexists. split; [left; reflexivity|]. cbn [f_offset]. unfold field_width in *. cbn [f_kind]. lia.
      * destruct (proj1 (I1 i)) as (g & Hg & Hgi); [lia|]. exists g. split; [right; exact Hg|exact Hgi].
    + intros (g & [<-|Hg] & Hgi).
      * cbn [f_offset] in Hgi. unfold field_width in *. cbn [f_kind] in Hgi. lia.
      * destruct (proj2 (I1 i)); [exists g; auto|]. lia.
Qed.

(** ** Packing *)

Definition fill (cs : list cont) (j : nat) : nat := match nth_error cs j with Some c => c_off c | None => 0 end.

Fixpoint taken (l : list bitf) (j : nat) : nat :=
  match l with
  | [] => 0
  | b :: l' => (if b_index b =? j then b_bits b else 0) + taken l' j
  end.

Lemma place_none cs k n : place cs k n = None -> Forall (fun c => c_cap c < n) cs.
Proof.
  revert k. induction cs as [|c cs IH]; intros k H; cbn [place] in H; [constructor|].
  destruct (Nat.leb_spec n (c_cap c)); [discriminate|]. constructor; [assumption|].
  destruct (place cs (S k) n) as [[[? ?] ?]|] eqn:E; [discriminate|]. eapply IH. exact E.
Qed.

Lemma place_first cs k n i o cs1 : place cs k n = Some (i, o, cs1) ->
  forall j c, k + j < i -> nth_error cs j = Some c -> c_cap c < n.
Proof.
  revert k i o cs1. induction cs as [|c cs IH]; intros k i o cs1 H j d Hj Hd; cbn [place] in H; [discriminate|].
  destruct (Nat.leb_spec n (c_cap c)).
  - injection H as <- <- <-. lia.
  - destruct (place cs (S k) n) as [[[i' o'] cs']|] eqn:E; [|discriminate]. injection H as <- <- <-.
    destruct j as [|j]; [cbn in Hd; injection Hd as <-; assumption|]. eapply (IH _ _ _ _ E j); [lia|exact Hd].
Qed.

Lemma alloc_trace bs : forall cs r cs2, alloc bs cs = Ret (r, cs2) -> Forall cont_ok cs ->
  length cs <= length cs2 /\
  (forall j, length cs <= j < length cs2 -> exists b, In b r /\ b_index b = j) /\
  forall pre b post, r = pre ++ b :: post ->
    exists c2, nth_error cs2 (b_index b) = Some c2 /\
      b_off b = fill cs (b_index b) + taken pre (b_index b) /\
      (forall j c, j < b_index b -> nth_error cs2 j = Some c -> 8 * prim_size (c_prim c) < fill cs j + taken pre j + b_bits b) /\
      (length cs <= b_index b -> (forall b', In b' pre -> b_index b' <> b_index b) ->
       primitive_for_bits (b_bits b) = Ret (c_prim c2) /\ forall b', In b' pre -> b_index b' < b_index b).
Proof.
  induction bs as [|b0 bs IH]; intros cs r cs2 H Hok; cbn [alloc] in H.
  - injection H as <- <-. split; [lia|]. split; [intros; lia|]. intros pre b post E. destruct pre; discriminate.
  - destruct (place cs 0 (b_bits b0)) as [[[i o] cs1]|] eqn:Ep.
    + destruct (place_spec _ _ _ _ _ _ Ep) as (j0 & c0 & Ei & Hj0 & Hn & Eo & E1). cbn [Nat.add] in Ei. subst i o.
      inv_bind H. destruct a as [r' cs']. injection H as <- <-.
      assert (Hj0l : j0 < length cs) by (apply nth_error_Some; congruence).
      assert (L1 : length cs1 = length cs) by (rewrite E1; apply update_length).
      assert (N1 : forall j, nth_error cs1 j = if j =? j0 then Some {| c_prim := c_prim c0; c_cap := c_cap c0 - b_bits b0; c_off := c_off c0 + b_bits b0 |}
                                   else nth_error cs j).
      { intros j. rewrite E1, nth_error_update. destruct (Nat.eqb_spec j j0) as [->|]; [rewrite Hj0|]; reflexivity. }
      assert (Hok1 : Forall cont_ok cs1).
      { rewrite Forall_forall in *. intros x Hx. apply In_nth_error in Hx as [j Hx]. rewrite N1 in Hx. destruct (j =? j0).
        - injection Hx as <-. destruct (Hok _ (nth_error_In _ _ Hj0)) as [Hu Hs]. split; [exact Hu|]. cbn [c_off c_cap c_prim]. lia.
        - apply Hok. eapply nth_error_In. exact Hx. }
      destruct (alloc_spec _ _ _ _ Ha Hok1) as (_ & Hg & _).
      destruct (IH _ _ _ Ha Hok1) as (I0 & I1 & I2). split; [lia|]. split.
      { intros j Hj. destruct (I1 j ltac:(lia)) as (b & Hb & Eb). exists b. split; [right; exact Hb|exact Eb]. }
      assert (F1 : forall j, fill cs1 j = fill cs j + (if j0 =? j then b_bits b0 else 0)).
      { intros j. unfold fill. rewrite N1. rewrite (Nat.eqb_sym j0 j). destruct (Nat.eqb_spec j j0) as [->|]; [rewrite Hj0; reflexivity|].
        destruct (nth_error cs j); lia. }
      assert (Hcap : forall j c, j < j0 -> nth_error cs' j = Some c -> 8 * prim_size (c_prim c) < fill cs j + b_bits b0).
      { intros j c Hj Hc. assert (Hd : exists d, nth_error cs j = Some d).
        { destruct (nth_error cs j) eqn:E; [eauto|]. apply nth_error_None in E. lia. }
        destruct Hd as (d & Hd). pose proof (place_first _ _ _ _ _ _ Ep j d ltac:(lia) Hd) as Hcap.
        rewrite Forall_forall in Hok. destruct (Hok _ (nth_error_In _ _ Hd)) as [_ Hs].
        destruct (Hg j d) as (d' & Hd' & Epp & _).
        { rewrite N1. destruct (Nat.eqb_spec j j0); [lia|exact Hd]. }
        assert (d' = c) by congruence. subst d'. rewrite Epp. unfold fill. rewrite Hd. lia. }
      intros pre b post E. destruct pre as [|b1 pre].
      * injection E as <- <-. cbn [b_index b_bits b_off taken].
        destruct (Hg j0) with (c := {| c_prim := c_prim c0; c_cap := c_cap c0 - b_bits b0; c_off := c_off c0 + b_bits b0 |})
          as (c2 & Hc2 & _); [rewrite N1, Nat.eqb_refl; reflexivity|].
        exists c2. split; [exact Hc2|]. split; [unfold fill; rewrite Hj0; lia|]. split.
        -- intros j c Hj Hc. specialize (Hcap j c Hj Hc). lia.
        -- intros Hl. lia.
      * injection E as <- ->. destruct (I2 pre b post eq_refl) as (c2 & Hc2 & Hoff & Hfull & Hnew).
        exists c2. split; [exact Hc2|]. cbn [taken b_index b_bits]. split; [rewrite Hoff, F1; lia|]. split.
        -- intros j c Hj Hc. specialize (Hfull j c Hj Hc). rewrite F1 in Hfull. lia.
        -- intros Hl Hp. destruct Hnew as [Hn1 Hn2]; [lia|intros b' Hb'; apply Hp; right; exact Hb'|]. split; [exact Hn1|].
           intros b' [<-|Hb']; [cbn [b_index]; lia|apply Hn2; exact Hb'].
    + inv_bind H. inv_bind H. inv_bind H. destruct a1 as [r' cs']. injection H as <- <-.
      pose proof (primitive_for_bits_spec _ _ Ha) as [Hu Hle].
      assert (Ecap : a0 = prim_size a * 8 - b_bits b0) by (unfold usub in Ha0; destruct (b_bits b0 <=? prim_size a * 8); congruence).
      set (c1 := {| c_prim := a; c_cap := a0; c_off := b_bits b0 |}) in *.
      assert (Hok1 : Forall cont_ok (cs ++ [c1])).
      { apply Forall_app. split; [exact Hok|]. constructor; [|constructor]. split; [exact Hu|].
        unfold c1. cbn [c_off c_cap c_prim]. lia. }
      destruct (alloc_spec _ _ _ _ Ha1 Hok1) as (_ & Hg & _).
      destruct (IH _ _ _ Ha1 Hok1) as (I0 & I1 & I2). rewrite app_length in *. cbn [length] in *. split; [lia|].
      assert (Nnew : nth_error (cs ++ [c1]) (length cs) = Some c1) by apply nth_error_snoc_r.
      split.
      { intros j Hj. destruct (Nat.eq_dec j (length cs)) as [->|Hne].
        - eexists. split; [left; reflexivity|reflexivity].
        - destruct (I1 j ltac:(lia)) as (b & Hb & Eb). exists b. split; [right; exact Hb|exact Eb]. }
      assert (F1 : forall j, fill (cs ++ [c1]) j = fill cs j + (if length cs =? j then b_bits b0 else 0)).
      { intros j. unfold fill. destruct (Nat.eqb_spec (length cs) j) as [<-|Hne].
        - rewrite Nnew. replace (nth_error cs (length cs)) with (@None cont) by (symmetry; apply nth_error_None; lia). reflexivity.
        - destruct (Nat.lt_ge_cases j (length cs)).
          + rewrite nth_error_snoc_l by assumption. lia.
          + replace (nth_error (cs ++ [c1]) j) with (@None cont) by (symmetry; apply nth_error_None; rewrite app_length; cbn; lia).
            replace (nth_error cs j) with (@None cont) by (symmetry; apply nth_error_None; lia). reflexivity. }
      assert (Hcap : forall j c, j < length cs -> nth_error cs' j = Some c -> 8 * prim_size (c_prim c) < fill cs j + b_bits b0).
      { intros j c Hj Hc. assert (Hd : exists d, nth_error cs j = Some d).
        { destruct (nth_error cs j) eqn:E; [eauto|]. apply nth_error_None in E. lia. }
        destruct Hd as (d & Hd). pose proof (place_none _ _ _ Ep) as Hcap. rewrite Forall_forall in Hcap, Hok.
        specialize (Hcap _ (nth_error_In _ _ Hd)). destruct (Hok _ (nth_error_In _ _ Hd)) as [_ Hs].
        destruct (Hg j d) as (d' & Hd' & Epp & _); [rewrite nth_error_snoc_l by exact Hj; exact Hd|].
        assert (d' = c) by congruence. subst d'. rewrite Epp. unfold fill. rewrite Hd. lia. }
      intros pre b post E. destruct pre as [|b1 pre].
      * injection E as <- <-. cbn [b_index b_bits b_off taken].
        destruct (Hg _ _ Nnew) as (c2 & Hc2 & Epp & _). exists c2. split; [exact Hc2|]. split.
        { unfold fill. replace (nth_error cs (length cs)) with (@None cont) by (symmetry; apply nth_error_None; lia). reflexivity. }
        split; [intros j c Hj Hc; specialize (Hcap j c Hj Hc); lia|].
        intros _ _. rewrite Epp. split; [exact Ha|intros b' []].
      * injection E as <- ->. destruct (I2 pre b post eq_refl) as (c2 & Hc2 & Hoff & Hfull & Hnew).
        exists c2. split; [exact Hc2|]. cbn [taken b_index b_bits]. split; [rewrite Hoff, F1; lia|]. split.
        -- intros j c Hj Hc. specialize (Hfull j c Hj Hc). rewrite F1 in Hfull. lia.
        -- intros Hl Hp. assert (length cs <> b_index b) by (apply (Hp _ (or_introl eq_refl))).
           destruct Hnew as [Hn1 Hn2]; [lia|intros b' Hb'; apply Hp; right; exact Hb'|]. split; [exact Hn1|].
           intros b' [<-|Hb']; [cbn [b_index]; lia|apply Hn2; exact Hb'].
Qed.

(** Containers get smaller. *)
Lemma primitive_for_bits_mono n m p q : primitive_for_bits n = Ret p -> primitive_for_bits m = Ret q -> n <= m -> prim_size p <= prim_size q.
Proof.
  unfold primitive_for_bits. destruct (n <=? 128); [|discriminate]. destruct (m <=? 128); [|discriminate].
  intros H1 H2 H. injection H1 as <-. injection H2 as <-.
  destruct (Nat.ltb_spec 64 n), (Nat.ltb_spec 64 m), (Nat.ltb_spec 32 n), (Nat.ltb_spec 32 m), (Nat.ltb_spec 16 n), (Nat.ltb_spec 16 m),
    (Nat.ltb_spec 8 n), (Nat.ltb_spec 8 m); cbn [prim_size]; lia.
Qed.

Definition shrinking (cs : list cont) : Prop := ForallOrdPairs (fun c d => prim_size (c_prim d) <= prim_size (c_prim c)) cs.

Lemma alloc_shrinking bs : forall cs r cs2, alloc bs cs = Ret (r, cs2) ->
  StronglySorted (fun a b => b_bits b <= b_bits a) bs -> shrinking cs ->
  Forall (fun c => forall b p, In b bs -> primitive_for_bits (b_bits b) = Ret p -> prim_size p <= prim_size (c_prim c)) cs ->
  shrinking cs2.
Proof.
  induction bs as [|b bs IH]; intros cs r cs2 H Hs Hc Hb; cbn [alloc] in H.
  - injection H as <- <-. exact Hc.
  - inversion Hs as [|? ? Hs' Hbb]; subst. destruct (place cs 0 (b_bits b)) as [[[i o] cs1]|] eqn:Ep.
    + destruct (place_spec _ _ _ _ _ _ Ep) as (j0 & c0 & Ei & Hj0 & Hn & Eo & E1).
      inv_bind H. destruct a as [r' cs']. injection H as <- <-.
      assert (Em : map c_prim cs1 = map c_prim cs).
      { apply list_ext. intros j. rewrite !nth_error_map, E1, nth_error_update. destruct (Nat.eqb_spec j j0) as [->|]; [|reflexivity].
        rewrite Hj0. reflexivity. }
      eapply IH; [exact Ha|exact Hs'| |].
      * clear - Hc Em. unfold shrinking in *. rewrite FOP_nth in *. intros i j c d Hij Hi Hj.
        assert (Ei : exists c', nth_error cs i = Some c' /\ c_prim c' = c_prim c).
        { pose proof (f_equal (fun l => nth_error l i) Em) as E. cbv beta in E. rewrite !nth_error_map, Hi in E.
          destruct (nth_error cs i) as [c'|]; [|discriminate]. exists c'. cbn in E. split; congruence. }
        assert (Ej : exists c', nth_error cs j = Some c' /\ c_prim c' = c_prim d).
        { pose proof (f_equal (fun l => nth_error l j) Em) as E. cbv beta in E. rewrite !nth_error_map, Hj in E.
          destruct (nth_error cs j) as [c'|]; [|discriminate]. exists c'. cbn in E. split; congruence. }
        destruct Ei as (c' & Hc' & <-). destruct Ej as (d' & Hd' & <-). eapply Hc; eassumption.
      * rewrite Forall_forall in *. intros c Hcc b1 p Hb1 Hp.
        assert (In (c_prim c) (map c_prim cs)) by (rewrite <- Em; apply in_map; exact Hcc).
        apply in_map_iff in H as (c' & <- & Hc'). eapply Hb; [exact Hc'|right; exact Hb1|exact Hp].
    + inv_bind H. inv_bind H. inv_bind H. destruct a1 as [r' cs']. injection H as <- <-.
      eapply IH; [exact Ha1|exact Hs'| |].
      * apply FOP_app; [exact Hc|repeat constructor|]. intros c d Hcc [<-|[]]. cbn [c_prim].
        rewrite Forall_forall in Hb. eapply Hb; [exact Hcc|left; reflexivity|exact Ha].
      * apply Forall_app. split.
        -- eapply Forall_impl; [|exact Hb]. cbv beta. intros c Hcc b1 p Hb1. apply Hcc. right. exact Hb1.
        -- constructor; [|constructor]. cbn [c_prim]. intros b1 p Hb1 Hp. rewrite Forall_forall in Hbb.
           eapply primitive_for_bits_mono; [exact Hp|exact Ha|]. apply Hbb. exact Hb1.
Qed.

Lemma primitive_for_bits_least n p p' : primitive_for_bits n = Ret p -> unsigned p' -> n <= 8 * width p' -> width p <= width p'.
Proof.
  unfold primitive_for_bits. destruct (n <=? 128); [|discriminate]. intros H Hu Hn. injection H as <-.
  unfold unsigned in Hu. cbn [In] in Hu.
  destruct Hu as [<-|[<-|[<-|[<-|[<-|[]]]]]]; cbn [width] in Hn |- *;
    destruct (Nat.ltb_spec 64 n), (Nat.ltb_spec 32 n), (Nat.ltb_spec 16 n), (Nat.ltb_spec 8 n); cbn [width]; lia.
Qed.

Lemma unsigned_iff p : is_unsigned p = true <-> unsigned p.
Proof. destruct p; unfold unsigned; cbn; split; intros H; try discriminate; try reflexivity; try tauto; intuition discriminate. Qed.

Lemma greatest_is l m : (forall x, In x l -> x <= m) -> 1 <= m -> (m = 1 \/ In m l) -> greatest l = m.
Proof.
  intros H1 H2 H3. assert (G : greatest l <= m).
  { clear H3. induction l as [|a l IH]; cbn [greatest fold_right]; [lia|]. fold (greatest l).
    specialize (H1 a (or_introl eq_refl)) as Ha. assert (greatest l <= m) by (apply IH; intros x Hx; apply H1; right; exact Hx). lia. }
  assert (G1 : 1 <= greatest l) by (clear; induction l as [|a l IH]; cbn [greatest fold_right]; [lia|fold (greatest l); lia]).
  destruct H3 as [->|H3]; [lia|]. assert (m <= greatest l); [|lia]. clear - H3.
  induction l as [|a l IH]; [destruct H3|]. cbn [greatest fold_right]. fold (greatest l).
  destruct H3 as [->|H3]; [lia|]. specialize (IH H3). lia.
Qed.

Lemma greatest_app a b : greatest (a ++ b) = Nat.max (greatest a) (greatest b).
Proof.
  induction a as [|x a IH]; cbn [app greatest fold_right].
  - fold (greatest b). assert (1 <= greatest b) by (clear; induction b as [|a l IH]; cbn [greatest fold_right]; [lia|fold (greatest l); lia]). lia.
  - fold (greatest (a ++ b)) (greatest a). lia.
Qed.

Lemma part_alignment_model v : (forall cases c, v_kind v = VEnum cases -> In c cases -> 1 <= l_align c) ->
  vfield_align v = part_alignment v.
Proof.
  intros H. unfold vfield_align, part_alignment. destruct (v_kind v) as [|[|c cs]]; [reflexivity|reflexivity|].
  specialize (H (c :: cs)). specialize (fun d => H d eq_refl). assert (Hc : 1 <= l_align c) by (apply H; left; reflexivity).
  assert (Hcs : forall d, In d cs -> 1 <= l_align d) by (intros d Hd; apply H; right; exact Hd). clear H.
  symmetry. apply greatest_is.
  - intros x Hx. assert (G : forall l a, a <= fold_left Nat.max l a /\ forall y, In y l -> y <= fold_left Nat.max l a).
    { clear. induction l as [|b l IH]; intros a; cbn [fold_left]; [split; [lia|intros y []]|].
      destruct (IH (Nat.max a b)) as [I1 I2]. split; [lia|]. intros y [<-|Hy]; [lia|apply I2; exact Hy]. }
    destruct (G (map l_align cs) (l_align c)) as [G1 G2]. destruct Hx as [<-|Hx]; [exact G1|apply G2; exact Hx].
  - assert (G : forall l a, a <= fold_left Nat.max l a).
    { clear. induction l as [|b l IH]; intros a; cbn [fold_left]; [lia|]. specialize (IH (Nat.max a b)). lia. }
    specialize (G (map l_align cs) (l_align c)). lia.
  - right. cbn [map In]. assert (G : forall l a, fold_left Nat.max l a = a \/ In (fold_left Nat.max l a) l).
    { clear. induction l as [|b l IH]; intros a; cbn [fold_left]; [left; reflexivity|].
      destruct (IH (Nat.max a b)) as [I|I]; [|right; right; exact I]. rewrite I. destruct (Nat.max_spec a b) as [[_ ->]|[_ ->]];
        [right; left; reflexivity|left; reflexivity]. }
    destruct (G (map l_align cs) (l_align c)) as [G1|G1]; [left; symmetry; exact G1|right; exact G1].
Qed.

Lemma split_app {A} (a b pre post : list A) x : a ++ b = pre ++ x :: post -> ~ In x a -> exists pre', pre = a ++ pre' /\ b = pre' ++ x :: post.
Proof.
  revert pre. induction a as [|y a IH]; intros pre E Hn; cbn [app] in E.
  - exists pre. auto.
  - destruct pre as [|z pre]; cbn [app] in E.
    + injection E as E1 E2. exfalso. apply Hn. left. exact E1.
    + injection E as -> E. destruct (IH pre E) as (pre' & -> & ->); [intros H; apply Hn; right; exact H|]. exists pre'. auto.
Qed.

(** ** Every layout *)

Record format_ok (l : layout) : Prop := {
  fo_dense : exists size,
    (forall i, i < size <-> exists f, In f (l_fixed l) /\ f_offset f <= i < f_offset f + field_width f) /\
    next_multiple (greatest (map part_alignment (l_vars l))) size (l_var_off l);
  fo_align : l_align l = greatest (map field_width (l_fixed l) ++ map part_alignment (l_vars l));
  fo_order : forall f g, In f (l_fixed l) -> In g (l_fixed l) -> f_offset f < f_offset g -> goes_first f g;
  fo_tags : ForallOrdPairs (fun f g => is_tag f -> is_tag g -> packed_first f g) (l_fixed l);
  fo_packed : forall pre f post, l_fixed l = pre ++ f :: post -> packed_next pre f;
  fo_parts : ForallOrdPairs part_first (l_vars l)
}.

Lemma finish_format fl vs l :
  ForallOrdPairs (fun e f => before (fst e) (fst f)) fl ->
  Forall2 var_rel (filter is_var fl) vs ->
  (forall v cases c, In v vs -> v_kind v = VEnum cases -> In c cases -> 1 <= l_align c) ->
  lay_ok fl l ->
  finish_layout (flat_map flat_fixed fl, flat_map flat_bits fl, vs) = Ret l ->
  format_ok l.
Proof.
  intros Hord Hvs Hal Hlay H. unfold finish_layout in H. inv_bind H. destruct a as [bits conts].
  unfold allocate_bitfields in Ha. inv_bind Ha. destruct a as [r cs]. injection Ha as <- <-. rename Ha0 into Halloc.
  destruct (alloc_spec _ _ _ _ Halloc (Forall_nil _)) as (A1 & _ & A3 & A4 & _).
  destruct (alloc_trace _ _ _ _ Halloc (Forall_nil _)) as (_ & T1 & T2).
  set (bs := flat_map flat_bits fl) in *. set (fx := flat_map flat_fixed fl) in *.
  set (sbs := sort_desc (fun a b => b_bits a <? b_bits b) bs) in *.
  assert (Hshrink : shrinking cs).
  { eapply alloc_shrinking; [exact Halloc|apply sort_desc_key|constructor|constructor]. }
  set (conts := cont_fields 0 cs) in *.
  set (sorted := sort_desc (fun l0 r0 => field_size l0 <? field_size r0) (fx ++ conts)) in *.
  set (vars := sort_desc (fun l0 r0 => vfield_align l0 <? vfield_align r0) vs) in *.
  inv_bind H. destruct a as [placed size]. rename Ha into Hoff.
  inv_bind H. rename a into fa. rename Ha into Hfa. cbv zeta in H.
  inv_bind H. rename a into size'. rename Ha into Hal'.
  inv_bind H. rename a into bfs. rename Ha into Hbfs.
  set (plain := filter (fun f => negb (is_container f)) placed) in *.
  inv_bind H. destruct a as [vars' ix]. rename Ha into Hlink. injection H as <-.
  pose proof (lo_place _ _ Hlay) as Hplace. pose proof (lo_desc _ _ Hlay) as _. cbn [l_fixed l_var_off] in Hplace.
  assert (Hperm : Permutation sorted (fx ++ conts)) by apply sort_desc_perm.
  assert (Hnb : Forall no_bit sorted).
  { eapply Permutation_Forall; [symmetry; exact Hperm|]. apply Forall_app. split; [apply flat_fixed_no_bit|].
    rewrite Forall_forall. intros f Hf. apply cont_fields_In in Hf as (j & c & _ & ->). exact I. }
  destruct (assign_offsets_spec _ _ _ _ Hoff) as (_ & O1 & O2 & O3).
  { apply sort_desc_key. }
  { rewrite Forall_forall. intros f _. apply Nat.divide_0_r. }
  { exact Hnb. }
  destruct (assign_dense _ _ _ _ Hoff Hnb) as [_ D1].
  pose proof (bit_fields_spec _ _ _ Hbfs) as HB.
  (* ranks of placed fields *)
  assert (Hrank : ForallOrdPairs (ranked field_size given) placed).
  { pose proof (sort_stable field_size given _ (given_all fl cs Hord)) as Hr. fold fx conts sorted in Hr.
    rewrite FOP_nth in *. intros i j f g Hij Hf Hg.
    destruct (Forall2_nth_r _ _ _ _ _ O1 Hf) as (f0 & Hf0 & E1). destruct (Forall2_nth_r _ _ _ _ _ O1 Hg) as (g0 & Hg0 & E2).
    specialize (Hr _ _ _ _ Hij Hf0 Hg0). unfold ranked in *. rewrite <- (same_field_size _ _ E1), <- (same_field_size _ _ E2).
    destruct Hr as [Hr|[Hr1 Hr2]]; [left; exact Hr|right]. split; [exact Hr1|].
    destruct E1 as [P1 K1], E2 as [P2 K2]. unfold given in *. rewrite <- K1, <- K2, <- P1, <- P2. exact Hr2. }
  assert (Hpos : forall f g, In f placed -> In g placed ->
            f = g \/ (f_offset f + field_size f <= f_offset g /\ ranked field_size given f g) \/
            (f_offset g + field_size g <= f_offset f /\ ranked field_size given g f)).
  { intros f g Hf Hg. apply In_nth_error in Hf as [i Hf]. apply In_nth_error in Hg as [j Hg].
    rewrite FOP_nth in Hrank, O3. destruct (Nat.lt_trichotomy i j) as [Hij|[Hij|Hij]].
    - right. left. split; [eapply O3; eassumption|eapply Hrank; eassumption].
    - subst. left. congruence.
    - right. right. split; [eapply O3; eassumption|eapply Hrank; eassumption]. }
  assert (Hpw : forall f, 1 <= field_size f).
  { intros f. destruct (pow2_16_field f) as (e & _ & ->). pose proof (Nat.pow_nonzero 2 e). lia. }
  assert (Horig : forall f, In f placed -> exists g, In g (fx ++ conts) /\ same_field g f).
  { intros f Hf. destruct (Forall2_in_r _ _ _ _ O1 Hf) as (g & Hg & Hs). exists g.
    split; [eapply Permutation_in; [exact Hperm|exact Hg]|exact Hs]. }
  assert (Hcont : forall f i p, In f placed -> f_kind f = FContainer i p ->
            exists c, nth_error cs i = Some c /\ p = c_prim c).
  { intros f i p Hf Hk. destruct (Horig _ Hf) as (g & Hg & [E1 E2]). apply in_app_or in Hg as [Hg|Hg].
    - destruct (flat_fixed_In _ _ Hg) as (e & _ & _ & Ek). rewrite E2, Hk in Ek. destruct Ek as [Ek|[p' Ek]]; discriminate.
    - apply cont_fields_In in Hg as (j & c & Hj & ->). rewrite Hk in E2. cbn [cont_field f_kind] in E2.
      cbn [Nat.add] in E2. injection E2 as E3 E4. subst j p. exists c. auto. }
  assert (Hplainkind : forall f, In f plain -> ~ is_tag f /\ is_container f = false /\ In f placed).
  { intros f Hf. apply filter_In in Hf as [Hf Hc]. destruct (Horig _ Hf) as (g & Hg & [E1 E2]).
    assert (Hcf : is_container f = false) by (destruct (is_container f); [discriminate|reflexivity]).
    split; [|auto]. apply in_app_or in Hg as [Hg|Hg].
    - destruct (flat_fixed_In _ _ Hg) as (e & _ & _ & Ek). unfold is_tag. rewrite <- E2. destruct Ek as [->|[p ->]]; tauto.
    - apply cont_fields_In in Hg as (j & c & _ & ->). unfold is_container in Hcf. rewrite <- E2 in Hcf. discriminate. }
  (* containers in the order of their numbers *)
  assert (Hmono : forall f g i j p p', In f placed -> In g placed -> f_kind f = FContainer i p -> f_kind g = FContainer j p' ->
            i < j -> f_offset f < f_offset g).
  { intros f g i j p p' Hf Hg Ef Eg Hij. destruct (Hcont _ _ _ Hf Ef) as (c & Hc & ->). destruct (Hcont _ _ _ Hg Eg) as (d & Hd & ->).
    unfold shrinking in Hshrink. rewrite FOP_nth in Hshrink. pose proof (Hshrink _ _ _ _ Hij Hc Hd) as Hsz.
    destruct (Hpos f g Hf Hg) as [->|[[Ho _]|[_ Hr]]].
    - exfalso. assert (i = j) by congruence. lia.
    - pose proof (Hpw f). lia.
    - exfalso. unfold ranked, given in Hr. rewrite Ef, Eg in Hr. unfold field_size in Hr. rewrite Ef, Eg in Hr. lia. }
  assert (Huniq : forall f g i p p', In f placed -> In g placed -> f_kind f = FContainer i p -> f_kind g = FContainer i p' -> f = g).
  { intros f g i p p' Hf Hg Ef Eg. destruct (Hcont _ _ _ Hf Ef) as (c & Hc & ->). destruct (Hcont _ _ _ Hg Eg) as (d & Hd & ->).
    assert (d = c) by congruence. subst d. destruct (Hpos f g Hf Hg) as [E|[[_ Hr]|[_ Hr]]]; [exact E| |]; exfalso;
      unfold ranked, given, field_size in Hr; rewrite Ef, Eg in Hr; lia. }
  (* a tag, its bit field and its container *)
  set (tagrel := fun (b : bitf) (f : ffield) => f_path f = b_path b /\
        exists F p, In F placed /\ f_kind F = FContainer (b_index b) p /\ f_offset F = f_offset f /\ f_kind f = FBit p (b_off b) (b_bits b)).
  assert (HT : Forall2 tagrel r bfs).
  { eapply Forall2_impl'; [|exact HB]. cbv beta. intros b f (E1 & p & Hfc & E2). split; [exact E1|].
    apply find_container_spec in Hfc as (F & HF & Ek & Eo). exists F, p. auto. }
  assert (Hidx : forall b f b' f', tagrel b f -> tagrel b' f' ->
            (b_index b = b_index b' <-> f_offset f = f_offset f') /\ (b_index b < b_index b' <-> f_offset f < f_offset f')).
  { intros b f b' f' (_ & F & p & HF & Ek & Eo & _) (_ & F' & p' & HF' & Ek' & Eo' & _).
    destruct (Nat.lt_trichotomy (b_index b) (b_index b')) as [Hlt|[Heq|Hlt]].
    - pose proof (Hmono _ _ _ _ _ _ HF HF' Ek Ek' Hlt). lia.
    - rewrite Heq in Ek. pose proof (Huniq _ _ _ _ _ HF HF' Ek Ek') as ->. lia.
    - pose proof (Hmono _ _ _ _ _ _ HF' HF Ek' Ek Hlt). lia. }
  (* carriers *)
  assert (Hcarry : forall f, In f (plain ++ bfs) -> exists F, In F placed /\ f_offset F = f_offset f /\ field_size F = field_size f /\
            ((F = f /\ In f plain) \/ (is_tag f /\ is_container F = true))).
  { intros f Hf. apply in_app_or in Hf as [Hf|Hf].
    - exists f. destruct (Hplainkind _ Hf) as (_ & _ & Hp). repeat split; auto.
    - destruct (Forall2_in_r _ _ _ _ HT Hf) as (b & Hb & _ & F & p & HF & Ek & Eo & Ef). exists F. split; [exact HF|]. split; [exact Eo|].
      split; [unfold field_size; rewrite Ek, Ef; reflexivity|]. right. unfold is_tag, is_container. rewrite Ek, Ef. auto. }
  assert (Hcover : forall F, In F placed -> exists f, In f (plain ++ bfs) /\ f_offset F = f_offset f /\ field_size F = field_size f).
  { intros F HF. destruct (is_container F) eqn:Ec.
    - destruct (f_kind F) as [| |i p|] eqn:Ek; unfold is_container in Ec; rewrite Ek in Ec; try discriminate.
      destruct (Hcont _ _ _ HF Ek) as (c & Hc & ->). destruct (T1 i) as (b & Hb & Eb).
      { cbn [length]. split; [lia|]. apply nth_error_Some. congruence. }
      destruct (Forall2_in_l _ _ _ _ HT Hb) as (f & Hf & _ & F' & p & HF' & Ek' & Eo & Ef). rewrite Eb in Ek'.
      pose proof (Huniq _ _ _ _ _ HF HF' Ek Ek') as <-. exists f. split; [apply in_or_app; right; exact Hf|]. split; [exact Eo|].
      unfold field_size. rewrite Ek', Ef. reflexivity.
    - exists F. split; [|auto]. apply in_or_app. left. apply filter_In. rewrite Ec. auto. }
  (* variable parts *)
  assert (Hlv : Forall2 (fun v v' => v_path v' = v_path v /\ v_kind v' = v_kind v) vars vars').
  { clear - Hlink. clearbody vars. revert Hlink.
    match goal with |- link_vars ?k _ ?i = _ -> _ => generalize i as ix0; generalize k as k0 end.
    revert vars' ix. induction vars as [|v vars IH]; intros vars' ix k0 ix0 H; cbn [link_vars] in H.
    - injection H as <- <-. constructor.
    - destruct (search ix0 (v_path v)); [|discriminate]. inv_bind H. inv_bind H. destruct a1 as [r' ix''].
      injection H as <- <-. constructor; [auto|]. eapply IH. exact Ha0. }
  assert (Hpa : forall v, In v vars -> vfield_align v = part_alignment v).
  { intros v Hv. apply part_alignment_model. intros cases c. apply Hal. eapply Permutation_in; [apply sort_desc_perm|exact Hv]. }
  assert (Hmap : map part_alignment vars' = map part_alignment vars).
  { clear - Hlv. induction Hlv as [|v v' vs1 vs1' [_ E] H IH]; [reflexivity|]. cbn [map]. rewrite IH. f_equal.
    unfold part_alignment. rewrite E. reflexivity. }
  assert (Hvrank : ForallOrdPairs (ranked vfield_align (fun v w => before (v_path v) (v_path w))) vars).
  { apply sort_stable. clear - Hvs Hord. revert vs Hvs. induction Hord as [|e fl He Hfl IH]; intros vs Hvs; cbn [filter] in Hvs.
    - inversion Hvs. constructor.
    - destruct (is_var e); [|apply IH; exact Hvs]. inversion Hvs as [|? v ? vs' Hv Hvs']; subst. constructor; [|apply IH; exact Hvs'].
      rewrite Forall_forall in *. intros w Hw. destruct (Forall2_in_r _ _ _ _ Hvs' Hw) as (e' & He' & [Ew _]).
      apply filter_In in He' as [He' _]. destruct Hv as [Ev _]. rewrite Ev, Ew. apply He. exact He'. }
  set (va := match vars with v :: _ => vfield_align v | [] => 1 end) in *.
  assert (Hva : greatest (map part_alignment vars') = va).
  { rewrite Hmap. unfold va. destruct vars as [|v vs1] eqn:Ev; [reflexivity|]. rewrite (Hpa v) by (left; reflexivity).
    assert (Hone : 1 <= part_alignment v).
    { unfold part_alignment. destruct (v_kind v); [lia|]. clear. induction cases as [|a l IH]; cbn; [lia|]. fold (greatest (map l_align l)). lia. }
    apply greatest_is; [|exact Hone|right; left; reflexivity]. intros x Hx. apply in_map_iff in Hx as (w & <- & Hw).
    destruct Hw as [<-|Hw]; [lia|]. inversion Hvrank as [|? ? Hr _]; subst. rewrite Forall_forall in Hr. specialize (Hr _ Hw).
    unfold ranked in Hr. rewrite (Hpa v), (Hpa w) in Hr by (cbn; auto). lia. }
  destruct (align_nat_inv _ _ _ Hal') as (_ & Hva0 & _ & Esize).
  constructor; cbn [l_fixed l_var_off l_vars l_align].
  - exists size. split.
    + intros i. specialize (D1 i). split.
      * intros Hi. destruct (proj1 D1) as (F & HF & Hi1); [lia|]. destruct (Hcover F HF) as (f & Hf & Eo & Es).
        exists f. split; [exact Hf|]. rewrite (field_width_size F), (field_width_size f) in Es. lia.
      * intros (f & Hf & Hi). destruct (Hcarry f Hf) as (F & HF & Eo & Es & _). enough (0 <= i < size) by lia. apply (proj2 D1).
        exists F. split; [exact HF|]. rewrite (field_width_size F), (field_width_size f) in Es. lia.
    + rewrite Hva, Esize. apply align_up_next. exact Hva0.
  - rewrite greatest_app, Hva. f_equal. symmetry. destruct placed as [|F0 placed'] eqn:Epl.
    + injection Hfa as <-. assert (En : plain ++ bfs = []).
      { destruct (plain ++ bfs) as [|f rest] eqn:E; [reflexivity|]. exfalso.
        destruct (Hcarry f (or_introl eq_refl)) as (F & [] & _). }
      rewrite En. reflexivity.
    + assert (Hn0 : no_bit F0).
      { inversion O1 as [|g ? ? ? [_ Ek] _ E3]; subst. rewrite <- E3 in Hnb. inversion Hnb as [|? ? Hg _]; subst.
        unfold no_bit in *. rewrite <- Ek. exact Hg. }
      rewrite kind_size_field in Hfa by exact Hn0. injection Hfa as <-. rewrite field_width_size. apply greatest_is.
      * intros x Hx. apply in_map_iff in Hx as (f & <- & Hf). destruct (Hcarry f Hf) as (F & HF & _ & Es & _).
        rewrite <- (field_width_size f), <- (field_width_size F0), <- Es. destruct HF as [<-|HF]; [lia|].
        inversion Hrank as [|? ? Hr _]; subst. rewrite Forall_forall in Hr. specialize (Hr _ HF). unfold ranked in Hr. lia.
      * rewrite <- field_width_size. apply Hpw.
      * right. destruct (Hcover F0 (or_introl eq_refl)) as (f & Hf & _ & Es). apply in_map_iff. exists f. split; [|exact Hf].
        rewrite <- (field_width_size f), <- (field_width_size F0). congruence.
  - intros f g Hf Hg Hlt. destruct (Hcarry f Hf) as (F & HF & Eo & Es & HFk). destruct (Hcarry g Hg) as (G & HG & Eo' & Es' & HGk).
    assert (Hr : ranked field_size given F G).
    { destruct (Hpos F G HF HG) as [->|[[_ Hr]|[Ho _]]]; [lia|exact Hr|]. pose proof (Hpw G). lia. }
    unfold ranked in Hr. rewrite Es, Es', !field_width_size in Hr. unfold goes_first. destruct Hr as [Hr|[Hr1 Hr2]]; [left; exact Hr|].
    right. split; [exact Hr1|]. destruct HGk as [[-> Hgp]|[Hgt _]]; [|left; exact Hgt].
    destruct (Hplainkind _ Hgp) as (Hgt & Hgc & _). right. destruct HFk as [[-> Hfp]|[_ HFc]].
    + destruct (Hplainkind _ Hfp) as (Hft & Hfc & _). split; [exact Hft|]. unfold given in Hr2. unfold is_container in Hgc, Hfc.
      destruct (f_kind f), (f_kind g); try discriminate; exact Hr2.
    + exfalso. unfold given in Hr2. unfold is_container in Hgc, HFc. destruct (f_kind F), (f_kind g); try discriminate; exact Hr2.
  - apply FOP_app.
    + apply FOP_nth. intros i j f g _ Hf _ Htf. exfalso. apply nth_error_In in Hf. apply (proj1 (Hplainkind _ Hf)). exact Htf.
    + assert (Hb : ForallOrdPairs (ranked b_bits (fun a b => before (b_path a) (b_path b))) sbs).
      { apply sort_stable. clear - Hord. unfold bs. induction Hord as [|e fl He Hfl IH]; cbn [flat_map]; [constructor|].
        apply FOP_app; [destruct e as [q [p| |c0]]; repeat constructor|exact IH|]. intros a b Ha Hb.
        apply in_flat_map in Hb as (e' & He' & Hb). rewrite Forall_forall in He. specialize (He _ He').
        destruct e as [q [p| |c0]]; cbn [flat_bits] in Ha; try (destruct Ha; fail). destruct Ha as [<-|[]].
        destruct e' as [q' [p| |c1]]; cbn [flat_bits] in Hb; try (destruct Hb; fail). destruct Hb as [<-|[]]. exact He. }
      rewrite FOP_nth in Hb. apply FOP_nth. intros i j f g Hij Hf Hg _ _.
      destruct (Forall2_nth_r _ _ _ _ _ HT Hf) as (b & Hb1 & Eb1 & F & p & _ & _ & _ & Ek).
      destruct (Forall2_nth_r _ _ _ _ _ HT Hg) as (b' & Hb2 & Eb2 & F' & p' & _ & _ & _ & Ek').
      assert (Q : forall k x, nth_error r k = Some x -> exists y, nth_error sbs k = Some y /\ b_path y = b_path x /\ b_bits y = b_bits x).
      { intros k x Hx. pose proof (f_equal (fun l => nth_error l k) A3) as E3. pose proof (f_equal (fun l => nth_error l k) A4) as E4.
        cbv beta in E3, E4. rewrite !nth_error_map, Hx in E3, E4. fold sbs in E3, E4.
        destruct (nth_error sbs k) as [y|]; [|discriminate]. cbn in E3, E4. exists y. split; [reflexivity|]. split; congruence. }
      destruct (Q _ _ Hb1) as (y & Hy & Ey1 & Ey2). destruct (Q _ _ Hb2) as (y' & Hy' & Ey1' & Ey2').
      specialize (Hb _ _ _ _ Hij Hy Hy'). unfold ranked in Hb. unfold packed_first, tag_bits_of. rewrite Ek, Ek', Eb1, Eb2.
      rewrite <- Ey1, <- Ey1', <- Ey2, <- Ey2'. exact Hb.
    + intros f g Hf _ Htf. exfalso. apply (proj1 (Hplainkind _ Hf)). exact Htf.
  - intros pre f post E. unfold packed_next. destruct (f_kind f) as [| | |p o n] eqn:Ek; try exact I.
    assert (Htf : is_tag f) by (unfold is_tag; rewrite Ek; exact I).
    destruct (split_app _ _ _ _ _ E) as (pre' & -> & Eb); [intros Hin; apply (proj1 (Hplainkind _ Hin)); exact Htf|].
    assert (HT' := HT). rewrite Eb in HT'. apply Forall2_app_inv_r in HT' as (rpre & rrest & HT1 & HT2 & Er).
    inversion HT2 as [|b ? rpost ? Hbf HT3]; subst rrest. 
    destruct (T2 _ _ _ Er) as (c2 & Hc2 & Hoffb & Hfull & Hnew).
    assert (Hin : In f (plain ++ bfs)) by (rewrite E; apply in_or_app; right; left; reflexivity).
    rewrite Forall_forall in Hplace. destruct (Hplace _ Hin) as (_ & _ & Hw). rewrite Ek in Hw. destruct Hw as [Hu Hfit].
    pose proof Hbf as (_ & F & p1 & HF & EF & EoF & Ek1). assert (p1 = p /\ b_off b = o /\ b_bits b = n) as (-> & <- & <-) by (split; [|split]; congruence).
    destruct (Hcont _ _ _ HF EF) as (c & Hc & ->). assert (c2 = c) by congruence. subst c2.
    assert (Hused : forall b' f', tagrel b' f' -> used (plain ++ pre') (f_offset f') = taken rpre (b_index b')).
    { intros b' f' Hb'. assert (U1 : forall a l, used (a ++ l) (f_offset f') = used a (f_offset f') + used l (f_offset f')).
      { clear. induction a as [|x a IH]; intros l; cbn [app used]; [reflexivity|]. rewrite IH. lia. }
      rewrite U1. assert (U2 : used plain (f_offset f') = 0).
      { assert (Hpl : Forall (fun f => ~ is_tag f) plain) by (rewrite Forall_forall; intros x Hx; apply (proj1 (Hplainkind _ Hx))).
        clear - Hpl. induction Hpl as [|x a Hx Ha IH]; [reflexivity|]. cbn [used]. unfold is_tag in Hx. unfold tag_bits_of.
        destruct (f_kind x); try (destruct (_ =? _); exact IH). exfalso. apply Hx. exact I. }
      rewrite U2. cbn [Nat.add]. clear - HT1 Hidx Hb'. induction HT1 as [|b1 f1 rp pp H1 HT1 IH]; [reflexivity|]. cbn [used taken].
      rewrite IH. f_equal. destruct (Hidx _ _ _ _ H1 Hb') as [Hi _]. pose proof H1 as (_ & F1 & p1 & _ & _ & _ & Ek1).
      unfold tag_bits_of. rewrite Ek1. destruct (Nat.eqb_spec (f_offset f1) (f_offset f')), (Nat.eqb_spec (b_index b1) (b_index b')); try reflexivity; tauto. }
    assert (Hpretag : forall g, In g (plain ++ pre') -> is_tag g -> exists b', In b' rpre /\ tagrel b' g).
    { intros g Hg Htg. apply in_app_or in Hg as [Hg|Hg]; [exfalso; apply (proj1 (Hplainkind _ Hg)); exact Htg|].
      destruct (Forall2_in_r _ _ _ _ HT1 Hg) as (b' & Hb' & Hr'). exists b'. auto. }
    assert (Hrpre : forall b', In b' rpre -> exists g, In g (plain ++ pre') /\ is_tag g /\ tagrel b' g).
    { intros b' Hb'. destruct (Forall2_in_l _ _ _ _ HT1 Hb') as (g & Hg & Hr'). exists g. split; [apply in_or_app; right; exact Hg|].
      split; [|exact Hr']. destruct Hr' as (_ & ? & ? & _ & _ & _ & Ekg). unfold is_tag. rewrite Ekg. exact I. }
    split; [apply unsigned_iff; exact Hu|]. split; [rewrite (Hused _ _ Hbf), Hoffb; unfold fill; destruct (b_index b); reflexivity|].
    split; [rewrite <- width_size; exact Hfit|]. split.
    + intros g Hg Htg Hlt. destruct (Hpretag _ Hg Htg) as (b' & Hb' & Hr'). destruct (Hidx _ _ _ _ Hr' Hbf) as [_ Hi].
      pose proof Hr' as (_ & F' & p' & HF' & EF' & Eo' & Ekg). destruct (Hcont _ _ _ HF' EF') as (c' & Hc' & ->).
      pose proof (Hfull (b_index b') c' ltac:(tauto) Hc') as Hf'. rewrite (Hused _ _ Hr'). unfold field_width. rewrite Ekg, <- width_size.
      unfold fill in Hf'. destruct (b_index b'); cbn [nth_error] in Hf'; lia.
    + intros Hno. destruct Hnew as [Hn1 Hn2].
      { cbn [length]. lia. }
      { intros b' Hb' Eq. destruct (Hrpre _ Hb') as (g & Hg & Htg & Hr'). apply (Hno g Hg Htg). apply (Hidx _ _ _ _ Hr' Hbf). exact Eq. }
      split.
      * intros g Hg Htg. destruct (Hpretag _ Hg Htg) as (b' & Hb' & Hr'). apply (Hidx _ _ _ _ Hr' Hbf). apply Hn2. exact Hb'.
      * intros p' Hp' Hle. eapply primitive_for_bits_least; eassumption.
  - rewrite FOP_nth in Hvrank. apply FOP_nth. intros i j v w Hij Hv Hw.
    destruct (Forall2_nth_r _ _ _ _ _ Hlv Hv) as (v0 & Hv0 & Ep & Ekv). destruct (Forall2_nth_r _ _ _ _ _ Hlv Hw) as (w0 & Hw0 & Ep' & Ekw).
    specialize (Hvrank _ _ _ _ Hij Hv0 Hw0). unfold ranked in Hvrank. rewrite (Hpa v0), (Hpa w0) in Hvrank by (eapply nth_error_In; eassumption).
    unfold part_first. rewrite Ep, Ep'. assert (E1 : part_alignment v = part_alignment v0) by (unfold part_alignment; rewrite Ekv; reflexivity).
    assert (E2 : part_alignment w = part_alignment w0) by (unfold part_alignment; rewrite Ekw; reflexivity). rewrite E1, E2. exact Hvrank.
Qed.

Lemma calculate_format t q l : calculate_layout t q = Ret l -> format_ok l.
Proof.
  intros H. pose proof (calculate_layout_ok _ _ _ H) as Hl. unfold calculate_layout in H. inv_bind H.
  destruct a as [[fx bs] vs]. destruct (unroll_flat t q fx bs vs Ha) as (-> & -> & Hvs).
  eapply finish_format; [apply flat_order|exact Hvs| |exact Hl|exact H].
  intros v cases c Hv Hk Hc. destruct (var_rel_enum _ _ _ _ _ Hvs Hv Hk Hc) as (cs & cse & i & H1 & H2 & _ & H4).
  destruct (lo_align _ _ (calculate_layout_ok _ _ _ H4)) as (e & _ & ->). pose proof (Nat.pow_nonzero 2 e). lia.
Qed.
