(** * Concrete values and texts used beside the JSON properties *)

From Coq Require Import Strings.String Permutation.
From Coq Require Import ZifyBool.
From Verif Require Import Base StrModel StrFacts Utf8Model Utf8Facts TypesModel MarshalModel MarshalSpec ValSource JsonNum JsonRead JsonData JsonModel JsonSpec JsonTop JsonEmit JsonMore.
Local Open Scope list_scope.
Local Open Scope Z_scope.

Lemma members_permuted alnum fl pf fs vs xs ms old :
  jsonable fl (TStruct fs) (VStruct vs) -> values_text fl (map snd fs) vs xs ->
  Permutation ms (combine (map fst fs) xs) ->
  exists d d0, json_decode alnum fl pf (TStruct fs) (object_text ms) old = Ret (d, Ok tt) /\
    json_decode alnum fl pf (TStruct fs) (object_text (combine (map fst fs) xs)) old = Ret (d0, Ok tt) /\
    presents (ds_source d) (TStruct fs) [] (VStruct vs) /\ (forall p, ds_get d p = ds_get d0 p).
Proof.
  intros Hj Hx HP. destruct (members_any_order alnum fl pf fs vs xs ms old Hj Hx HP) as (d & E & P & G).
  destruct (members_any_order alnum fl pf fs vs xs _ old Hj Hx (Permutation_refl _)) as (d0 & E0 & _ & G0).
  exists d, d0. repeat split; try assumption. intros p. rewrite G, G0. reflexivity.
Qed.

Definition jx_alnum (c : Z) : bool := (192 <=? c) && (c <=? 255).

(** Floats written as the number of the bit pattern, read back in the same way. *)
Definition jx_fl : floats := {|
  show_float p z := show_int z;
  parse_float p s := parse_int 0 (2 ^ (8 * Z.of_nat (prim_size p)) - 1) s
|}.

(** struct { id: u16, ok: bool, e: enum { none: (), some: (i32, string, f64) }, t: string } *)
Definition jx_ty : ty :=
  TStruct [(lit "id", TPrim PU16); (lit "ok", TPrim PBool);
           (lit "e", TEnum [(lit "none", TUnit); (lit "some", TTuple [TPrim PI32; TString; TPrim PF64])]);
           (lit "t", TString)].

Definition jx_val : val :=
  VStruct [VPrim 513; VPrim 1; VCase 1 (VTuple [VPrim (-7); VStr (utf8_encode [65; 8364]); VPrim 12]); VStr (utf8_encode [10; 34])].

Definition jx_text : str :=
  lit "{""id"":513,""ok"":true,""e"":{""kind"":""some"",""value"":[-7,""A" ++ [8364] ++ lit """,12]},""t"":""\n\""""}".

(** The same value with its members in another order, more white space and escapes. *)
Definition jx_messy : str :=
  lit "{ ""t"" : ""\u000A\"""", ""e"":{""kind"":""some"",""value"":[-7 ,""A\u20aC"",12 ]},""ok"":true, ""id"":""+513"" } 1".

Lemma jx_typed : typed jx_ty jx_val.
Proof.
  unfold jx_ty, jx_val. constructor. repeat (apply tl_cons); try apply tl_nil.
  - constructor; cbn; lia.
  - constructor; cbn; auto.
  - eapply ty_enum; [reflexivity|]. constructor. repeat (apply tl_cons); try apply tl_nil.
    + constructor; cbn; lia.
    + constructor; vm_compute; reflexivity.
    + constructor; cbn; lia.
  - constructor; vm_compute; reflexivity.
Qed.

Lemma jx_char c : (is_char c && negb (c =? 0) && (0x20 <=? c) && (c <? 0x8000)) = true -> json_char c.
Proof. unfold json_char, bad_control. destruct (is_char c); cbn [andb]; [lia|discriminate]. Qed.

Ltac json_chars := repeat (apply Forall_cons; [apply jx_char; reflexivity|]); apply Forall_nil.

Lemma jx_jsonable : jsonable jx_fl jx_ty jx_val.
Proof.
  unfold jx_ty, jx_val. constructor.
  - cbn. lia.
  - cbn [map fst]. repeat constructor; cbn; intuition discriminate.
  - cbn [map fst]. repeat (apply Forall_cons; [json_chars|]). apply Forall_nil.
  - cbn [map snd]. repeat (apply jss_cons); try apply jss_nil.
    + constructor; [cbn; lia|discriminate|intros [|]; discriminate].
    + constructor; [cbn; auto|discriminate|intros [|]; discriminate].
    + eapply js_enum; [cbn [map fst]; repeat constructor; cbn; intuition discriminate|reflexivity|json_chars|].
      constructor. repeat (apply jss_cons); try apply jss_nil.
      * constructor; [cbn; lia|discriminate|intros [|]; discriminate].
      * constructor. json_chars.
      * constructor; [cbn; lia|discriminate|]. intros _. split; [|vm_compute; reflexivity].
        exists [], (lit "12"), [], []. split; [reflexivity|]. split; [left; reflexivity|]. split; [|split; left; reflexivity].
        right. exists 49, [50]. split; [reflexivity|]. split; [lia|]. repeat constructor; lia.
    + constructor. apply Forall_cons; [|json_chars]. unfold json_char, bad_control. cbn. lia.
Qed.

Lemma jx_decoded : decoded jx_ty jx_val.
Proof.
  unfold jx_ty, jx_val. constructor. repeat (apply del_cons); try apply del_nil.
  - constructor; cbn; lia.
  - constructor; cbn; auto.
  - eapply de_enum; [reflexivity|]. constructor. repeat (apply del_cons); try apply del_nil.
    + constructor; cbn; lia.
    + constructor. repeat constructor.
    + constructor; cbn; lia.
  - constructor. repeat constructor.
Qed.

Lemma jx_chars : Forall json_char [97; 10; 47; 0x19; 0x1F600; 0x20AC] /\ ~ json_char 0x1B /\ ~ json_char 0 /\ ~ json_char 0x9999 /\
  is_char 0x1B = true /\ is_char 0 = true /\ is_char 0x9999 = true.
Proof.
  split; [repeat constructor; cbn; unfold bad_control; cbn; lia|]. unfold json_char, bad_control.
  split; [cbn; lia|]. split; [lia|]. split; [lia|]. repeat split; reflexivity.
Qed.

Lemma jx_floats : floats_in_range jx_fl.
Proof.
  intros p s z Hp H. cbn [jx_fl parse_float] in H. apply parse_int_sound in H. destruct H as [H _].
  destruct Hp as [-> | ->]; cbn in *; lia.
Qed.

Lemma jx_messy_decodes : exists d, json_decode jx_alnum jx_fl Debug jx_ty jx_messy [] = Ret (d, Ok tt) /\
  ds_get d [2%nat; 1%nat; 1%nat] = Some (JString [65; 8364]) /\
  Forall (fun c => is_char c = true) jx_messy /\ all_structs (fun n => Debug = Debug \/ n <> 64%nat) jx_ty /\
  floats_in_range jx_fl.
Proof.
  eexists. split; [vm_compute; reflexivity|]. split; [vm_compute; reflexivity|].
  split. { apply Forall_forall. apply forallb_forall. vm_compute. reflexivity. }
  split; [|exact jx_floats]. unfold jx_ty. repeat constructor.
Qed.

(** A struct of n string fields. *)
Definition jx_wide (n : nat) : list (str * ty) := map (fun i => ([1000 + Z.of_nat i], TString)) (seq 0 n).

Lemma jx_release_64 : exists t input d,
  json_decode jx_alnum jx_fl Release t input [] = Ret (d, Ok tt) /\ (forall v, ~ presents (ds_source d) t [] v) /\
  json_encode jx_fl t (ds_source d) = Panic.
Proof.
  exists (TStruct (jx_wide 64)), (lit "{}"), []. split; [vm_compute; reflexivity|]. split; [|vm_compute; reflexivity].
  intros v H. inversion H; subst. cbn in *. match goal with X : presents_list _ _ _ _ _ |- _ => inversion X; subst end.
  match goal with X : presents _ TString _ _ |- _ => inversion X as [| |? ? HS| | |]; subst end. vm_compute in HS. discriminate.
Qed.

Lemma jx_wide_encoded : exists fs v l bs, List.length fs = 65%nat /\ typed (TStruct fs) v /\
  layout_new (TStruct fs) = Ret l /\ json_encode jx_fl (TStruct fs) (val_source v) = Ret bs.
Proof.
  eexists (jx_wide 65), (VStruct (repeat (VStr [x41]) 65)), _, _. split; [reflexivity|]. split.
  - constructor. unfold jx_wide. rewrite map_map. cbn [snd].
    assert (G : forall n k, typed_list (map (fun _ : nat => TString) (seq k n)) (repeat (VStr [x41]) n)).
    { induction n as [|n IH]; intros k; cbn [seq map repeat]; [constructor|]. constructor; [|apply IH]. constructor. vm_compute. reflexivity. }
    apply G.
  - split; vm_compute; reflexivity.
Qed.
