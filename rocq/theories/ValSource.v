(** * A source for every value (used in examples and to show that [presents] is satisfiable) *)

From Verif Require Import Base StrModel TypesModel MarshalModel MarshalSpec.

Fixpoint val_at (v : val) (q : path) : option val :=
  match q with
  | [] => Some v
  | k :: q' =>
      match v with
      | VTuple vs | VStruct vs => match nth_error vs k with Some w => val_at w q' | None => None end
      | VCase k' w => if k =? k' then val_at w q' else None
      | _ => None
      end
  end.

Definition val_source (v : val) : source := {|
  src_prim := fun _ q => match val_at v q with Some (VPrim z) => Ret z | _ => Panic end;
  src_tag := fun q => match val_at v q with Some (VCase k _) => Ret k | _ => Panic end;
  src_len := fun q => match val_at v q with Some (VStr bs) => Ret (length bs) | _ => Panic end;
  src_bytes := fun q => match val_at v q with Some (VStr bs) => Ret bs | _ => Panic end
|}.

Lemma val_at_app v q r w : val_at v q = Some w -> val_at v (q ++ r) = val_at w r.
Proof.
  revert v. induction q as [|k q IH]; intros v H; cbn [val_at app] in *; [congruence|].
  destruct v as [| | |vs|vs|k' v]; try discriminate.
  - destruct (nth_error vs k); [apply IH; exact H|discriminate].
  - destruct (nth_error vs k); [apply IH; exact H|discriminate].
  - destruct (k =? k'); [apply IH; exact H|discriminate].
Qed.

Lemma presents_val_source v0 : forall t v, typed t v -> forall q, val_at v0 q = Some v -> presents (val_source v0) t q v.
Proof.
  apply (typed_mind (fun t v => forall q, val_at v0 q = Some v -> presents (val_source v0) t q v)
    (fun ts vs => forall q k, (forall i w, nth_error vs i = Some w -> val_at v0 (q ++ [k + i]) = Some w) ->
       presents_list (val_source v0) ts q k vs)).
  - intros q H. constructor.
  - intros p z Hz q H. constructor. cbn. rewrite H. reflexivity.
  - intros bs Hb q H. constructor; cbn; rewrite H; reflexivity.
  - intros ts vs _ IH q H. constructor. apply IH. intros i w Hw. rewrite (val_at_app _ _ _ _ H). cbn. rewrite Hw. reflexivity.
  - intros ts vs _ IH q H. constructor. apply IH. intros i w Hw. rewrite (val_at_app _ _ _ _ H). cbn. rewrite Hw. reflexivity.
  - intros cs k l t v Hn _ IH q H. apply pr_enum with l t; [cbn; rewrite H; reflexivity|exact Hn|].
    apply IH. rewrite (val_at_app _ _ _ _ H). cbn. rewrite Nat.eqb_refl. reflexivity.
  - intros q k _. constructor.
  - intros t ts v vs _ IH _ IHs q k H. constructor.
    + apply IH. specialize (H 0 v eq_refl). rewrite Nat.add_0_r in H. exact H.
    + apply IHs. intros i w Hw. specialize (H (S i) w Hw). rewrite <- Nat.add_succ_comm in H. exact H.
Qed.

Lemma every_value_presented t v : typed t v -> presents (val_source v) t [] v.
Proof. intros H. apply presents_val_source; [exact H|reflexivity]. Qed.
