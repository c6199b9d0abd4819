(** * Properties C07, C08 and C09 *)

From Verif Require Import Base StrModel StrFacts TypesModel TypesSpec TypesProofs.

(** C07: [cmp] says Equal exactly on equal paths (reflexivity and antisymmetry in one). *)
Theorem path_order_equal_iff : forall p q, path_cmp p q = Eq <-> p = q.
Proof. exact path_cmp_eq. Qed.
Print Assumptions path_order_equal_iff.

Example path_order_equal_iff_ex : path_cmp [3; 0; 7] [3; 0; 7] = Eq /\ path_cmp [3; 0; 7] [3; 0] <> Eq.
Proof. split; [reflexivity|discriminate]. Qed.

(** C07: swapping the arguments reverses the answer; since there are only three answers the order is total. *)
Theorem path_order_reversal : forall p q, path_cmp q p = CompOpp (path_cmp p q).
Proof. exact path_cmp_opp. Qed.
Print Assumptions path_order_reversal.

Example path_order_reversal_ex : path_cmp [1; 5] [1; 4; 9] = Gt /\ path_cmp [1; 4; 9] [1; 5] = Lt.
Proof. split; reflexivity. Qed.

(** C07: transitivity, for each of the three answers. *)
Theorem path_order_transitive : forall c p q r, path_cmp p q = c -> path_cmp q r = c -> path_cmp p r = c.
Proof. exact path_cmp_trans. Qed.
Print Assumptions path_order_transitive.

Example path_order_transitive_ex :
  path_cmp [1] [1; 4] = Lt /\ path_cmp [1; 4] [2] = Lt /\ path_cmp [1] [2] = Lt.
Proof. repeat split; reflexivity. Qed.

(** C07: which paths are smaller: proper extensions come later, otherwise the first difference decides. *)
Theorem path_order_lexicographic : forall p q,
  path_cmp p q = Lt <->
  strictly_extends p q \/
  exists c i j p' q', p = c ++ i :: p' /\ q = c ++ j :: q' /\ i < j.
Proof. exact path_cmp_lt. Qed.
Print Assumptions path_order_lexicographic.

Example path_order_lexicographic_ex : path_cmp [2; 9; 9] [2; 10] = Lt /\ path_cmp [2] [2; 0] = Lt.
Proof. split; reflexivity. Qed.

(** C07: what lies between a path and one of its extensions extends the path: subtrees are contiguous. *)
Theorem path_order_subtree_contiguous : forall p q s,
  path_cmp p q <> Gt -> path_cmp q (p ++ s) <> Gt -> extends p q.
Proof. exact path_cmp_between. Qed.
Print Assumptions path_order_subtree_contiguous.

Example path_order_subtree_contiguous_ex :
  path_cmp [4] [4; 0; 8] <> Gt /\ path_cmp [4; 0; 8] ([4] ++ [1]) <> Gt.
Proof. split; discriminate. Qed.

(** C08: [is_prefix_of] decides extension. *)
Theorem prefix_test_exact : forall p q, is_prefix_of p q = true <-> extends p q.
Proof. exact is_prefix_of_iff. Qed.
Print Assumptions prefix_test_exact.

Example prefix_test_exact_ex :
  is_prefix_of [1; 2] [1; 2; 3] = true /\ is_prefix_of [1; 2; 3] [1; 2] = false /\ is_prefix_of [1; 3] [1; 2; 3] = false.
Proof. repeat split; reflexivity. Qed.

(** C08: [is_proper_prefix_of] answers false whatever it is asked. *)
Theorem proper_prefix_test_always_false : forall p q, is_proper_prefix_of p q = false.
Proof. exact is_proper_prefix_of_false. Qed.
Print Assumptions proper_prefix_test_always_false.

Example proper_prefix_test_always_false_ex : is_proper_prefix_of [1] [1; 2] = false.
Proof. reflexivity. Qed.

(** C08: so the natural specification of [is_proper_prefix_of] fails. *)
Theorem proper_prefix_test_exact_refuted :
  exists p q, strictly_extends p q /\ is_proper_prefix_of p q = false.
Proof. exists [1], [1; 2]. split; [exists [2]; split; [discriminate|reflexivity]|reflexivity]. Qed.
Print Assumptions proper_prefix_test_exact_refuted.

(** C09: [extract] returns the element at the path and panics exactly when there is none. *)
Theorem extract_exact : forall t p,
  (forall u, extract t p = Ret u <-> at_path t p u) /\ extract t p <> Undef.
Proof. exact (fun t p => conj (extract_at t p) (extract_not_undef t p)). Qed.
Print Assumptions extract_exact.

Example extract_exact_ex :
  extract (TTuple [TString; TStruct [([97%Z], TPrim PU8); ([98%Z], TUnit)]]) [1; 1] = Ret TUnit /\
  extract (TTuple [TString]) [0; 0] = Panic.
Proof. split; reflexivity. Qed.

(** C09: resolution succeeds with [p] exactly when walking [p] spells the name. *)
Theorem resolve_spells_name : forall t name p,
  resolve_qualified_name t name = Ok p <-> exists cs, dotted cs name /\ spells t cs p.
Proof. exact resolve_name_iff. Qed.
Print Assumptions resolve_spells_name.

(** "a.1" in struct { b: (), a: ((), string) }. *)
Example resolve_spells_name_ex :
  resolve_qualified_name (TStruct [([98%Z], TUnit); ([97%Z], TTuple [TUnit; TString])]) [97; 46; 49]%Z = Ok [1; 1].
Proof. reflexivity. Qed.

(** C09: an error is about the first component that names nothing. *)
Theorem resolve_first_error : forall t name e, resolve_qualified_name t name = Err e <->
  exists cs1 c cs2 p u, dotted (cs1 ++ c :: cs2) name /\ spells t cs1 p /\ at_path t p u /\ refused u c e.
Proof. exact resolve_error_iff. Qed.
Print Assumptions resolve_first_error.

(** "a.2.x" and "a.1.x" in the same struct, and an index of 2^64. *)
Example resolve_first_error_ex :
  let t := TStruct [([98%Z], TUnit); ([97%Z], TTuple [TUnit; TString])] in
  resolve_qualified_name t [97; 46; 50; 46; 120]%Z = Err (InvalidTuple [50%Z]) /\
  resolve_qualified_name t [97; 46; 49; 46; 120]%Z = Err NotIndexable /\
  resolve_qualified_name t ([97; 46] ++ show_int (2 ^ 64))%Z = Err (InvalidTuple (show_int (2 ^ 64))).
Proof. vm_compute. repeat split; reflexivity. Qed.

(** C09: and then extraction along the path succeeds. *)
Theorem resolve_then_extract : forall t name p,
  resolve_qualified_name t name = Ok p -> p <> [] /\ exists u, extract t p = Ret u.
Proof. exact (fun t name p H => conj (resolve_never_empty t name p H) (resolve_extract t name p H)). Qed.
Print Assumptions resolve_then_extract.

Example resolve_then_extract_ex :
  exists t name p, resolve_qualified_name t name = Ok p /\ length p = 2 /\ extract t p = Ret TString.
Proof.
  exists (TEnum [([98%Z], TUnit); ([97%Z], TTuple [TUnit; TString])]), [97; 46; 43; 48; 49]%Z, [1; 1].
  repeat split; reflexivity.
Qed.

(** C09: with distinct, dot-free sibling labels every non-empty path to an element has a name that resolves back
    to it. Indices are [usize] values, hence the bound. *)
Theorem every_path_has_a_name : forall t p u,
  good_labels t -> p <> [] -> at_path t p u -> Forall (fun i => (Z.of_nat i < 2 ^ 64)%Z) p ->
  resolve_qualified_name t (join_dot (name_components t p)) = Ok p.
Proof. exact name_resolves. Qed.
Print Assumptions every_path_has_a_name.

Example every_path_has_a_name_ex :
  let t := TStruct [([98%Z], TUnit); ([97%Z], TTuple [TUnit; TString])] in
  good_labels t /\ at_path t [1; 1] TString /\ join_dot (name_components t [1; 1]) = [97; 46; 49]%Z.
Proof.
  split; [|split; [|reflexivity]].
  - apply gl_struct.
    + cbn. constructor; [intros [H|[]]; discriminate|constructor; [intros []|constructor]].
    + repeat constructor; cbn; intros [H|[]]; discriminate.
    + repeat constructor.
  - econstructor; [reflexivity|]. econstructor; [reflexivity|]. constructor.
Qed.

(** C09: without distinct labels the later of two equal labels has no name. *)
Theorem every_path_has_a_name_refuted :
  exists t p u, p <> [] /\ at_path t p u /\ forall name, resolve_qualified_name t name <> Ok p.
Proof.
  exists (TStruct [([97%Z], TUnit); ([97%Z], TUnit)]), [1], TUnit. split; [discriminate|]. split.
  - econstructor; [reflexivity|]. constructor.
  - intros name H. apply resolve_name_spells in H. inversion H as [| |? ? ? ? ? ? [Hn Hf] _|]; subst.
    cbn in Hn. injection Hn as <- <-. apply (Hf 0 TUnit); [constructor|reflexivity].
Qed.
Print Assumptions every_path_has_a_name_refuted.
