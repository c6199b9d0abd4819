(** * The marshalling statements in the form used by the property files *)

From Coq Require Import Permutation ZifyBool ZifyNat ZifyN.
From Verif Require Import Base BaseFacts UtilModel UtilSpec UtilProofs StrModel TypesModel TypesSpec TypesProofs.
From Verif Require Import MarshalModel MarshalSpec ListFacts LayoutProofs FieldProofs LayoutTotal PresentsFacts MarshalProofs MarshalMore MarshalLimits SizeTotal.

Lemma firstn_agree n (a b : list byte) : firstn n a = firstn n b -> agree_upto n a b.
Proof.
  intros H i Hi. pose proof (f_equal (fun l => nth_error l i) H) as E. cbv beta in E. rewrite !nth_error_firstn in E.
  destruct (Nat.ltb_spec i n); [exact E|lia].
Qed.

Lemma round_trip pf src t l v n buf :
  small t -> layout_new t = Ret l -> marshallable pf l -> presents src t [] v -> typed t v ->
  encoding_size_with_source src l = Ret n -> n <= length buf ->
  exists buf', encode_with_source pf src l buf = Ret (buf', n) /\
    forall data, n <= length data -> firstn n data = firstn n buf' -> presents (marshaller_source pf l data) t [] v.
Proof.
  intros Hs Hl Hm Hp Ht Hn Hb. destruct (encode_correct pf src t [] l v Hs Hl Hm Hp Ht n Hn buf Hb) as (buf' & E & L & K & S).
  exists buf'. split; [exact E|]. intros data Hd Hag. apply firstn_agree in Hag. apply (S data Hd Hag); assumption.
Qed.

Lemma size_and_frame pf src t l v n buf :
  small t -> layout_new t = Ret l -> marshallable pf l -> presents src t [] v -> typed t v ->
  encoding_size_with_source src l = Ret n -> n <= length buf ->
  Nat.divide (l_align l) n /\
  exists buf', encode_with_source pf src l buf = Ret (buf', n) /\ length buf' = length buf /\
    skipn n buf' = skipn n buf /\
    forall data, n <= length data -> firstn n data = firstn n buf' -> encoding_size pf l data = Ret n.
Proof.
  intros Hs Hl Hm Hp Ht Hn Hb. split.
  - destruct l as [al vo ix fx vs]. cbn [encoding_size_with_source l_align] in *. inv_bind Hn.
    apply align_nat_inv in Hn as (_ & _ & _ & ->). apply align_up_div.
  - destruct (encode_correct pf src t [] l v Hs Hl Hm Hp Ht n Hn buf Hb) as (buf' & E & L & K & S).
    exists buf'. split; [exact E|]. split; [exact L|]. split.
    + apply list_ext. intros i. rewrite !nth_error_skipn. apply K. lia.
    + intros data Hd Hag. apply firstn_agree in Hag. apply (S data Hd Hag).
Qed.

Lemma round_trip_total pf src t v :
  inhabited_type t -> small t -> all_enums good_case_count t -> presents src t [] v -> typed t v ->
  (Z.of_nat (val_size v) < 2 ^ 57)%Z ->
  exists l n, layout_new t = Ret l /\ encoding_size_with_source src l = Ret n /\ n <= 64 * val_size v /\
    forall buf, n <= length buf ->
    exists buf', encode_with_source pf src l buf = Ret (buf', n) /\ presents (marshaller_source pf l buf') t [] v.
Proof.
  intros Hi Hs Ha Hp Ht Hv. destruct (layout_total t [] Hi Hs) as [l Hl].
  destruct (size_total src t [] l v Hl Hp Hv) as (n & Hn & Hle). exists l, n.
  split; [exact Hl|]. split; [exact Hn|]. split; [exact Hle|]. intros buf Hb.
  pose proof (marshallable_type pf _ _ _ Hs Ha Hl) as Hm.
  destruct (round_trip pf src t l v n buf Hs Hl Hm Hp Ht Hn Hb) as (buf' & E & S). exists buf'. split; [exact E|].
  apply S; [|reflexivity]. apply encode_length in E. lia.
Qed.

Lemma reencode pf src t l v n buf buf' :
  small t -> layout_new t = Ret l -> marshallable pf l -> presents src t [] v -> typed t v ->
  encoding_size_with_source src l = Ret n -> n <= length buf -> encode_with_source pf src l buf = Ret (buf', n) ->
  presents (marshaller_source pf l buf') t [] v /\
  encoding_size_with_source (marshaller_source pf l buf') l = Ret n /\
  forall pf' other, encode_with_source pf' (marshaller_source pf l buf') l other = encode_with_source pf' src l other.
Proof.
  intros Hs Hl Hm Hp Ht Hn Hb E. destruct (round_trip pf src t l v n buf Hs Hl Hm Hp Ht Hn Hb) as (b2 & E2 & S).
  assert (b2 = buf') as -> by congruence.
  assert (Hp' : presents (marshaller_source pf l buf') t [] v).
  { apply S; [|reflexivity]. apply encode_length in E. lia. }
  split; [exact Hp'|]. split.
  - destruct (encode_same pf _ _ _ _ _ _ Hl Hp Hp') as [-> _]. exact Hn.
  - intros pf' other. destruct (encode_same pf' _ _ _ _ _ _ Hl Hp Hp') as [_ H]. apply H.
Qed.
