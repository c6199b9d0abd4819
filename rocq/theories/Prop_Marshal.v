(** * Properties C11 to C15 *)

From Verif Require Import Base StrModel TypesModel MarshalModel MarshalSpec LayoutProofs MarshalMore MarshalLimits MarshalTop ValSource.

(** C11: what was encoded is read back, from any data that begins with the encoded bytes. [presents s t [] v] says that
    every accessor of [s] (primitive, string, string length, case tag) for every element of [v] answers as [v] has it. *)
Theorem marshal_round_trip : forall pf src t l v n buf,
  small t -> layout_new t = Ret l -> marshallable pf l -> presents src t [] v -> typed t v ->
  encoding_size_with_source src l = Ret n -> n <= length buf ->
  exists buf', encode_with_source pf src l buf = Ret (buf', n) /\
    forall data, n <= length data -> firstn n data = firstn n buf' -> presents (marshaller_source pf l data) t [] v.
Proof. exact round_trip. Qed.
Print Assumptions marshal_round_trip.

(** struct { a: u8, e: enum { x: (), y: (string, i16), z: u64 }, s: string } *)
Definition ex_ty : ty :=
  TStruct [([97%Z], TPrim PU8);
           ([101%Z], TEnum [([120%Z], TUnit); ([121%Z], TTuple [TString; TPrim PI16]); ([122%Z], TPrim PU64)]);
           ([115%Z], TString)].
Definition ex_val : val := VStruct [VPrim 200; VCase 1 (VTuple [VStr [x41; x42]; VPrim (-3)]); VStr [x43]].
Definition ex_src : source := val_source ex_val.

Example ex_typed : typed ex_ty ex_val.
Proof.
  constructor. constructor; [constructor; vm_compute; intuition discriminate|].
  constructor; [|constructor; [constructor; vm_compute; reflexivity|constructor]].
  eapply ty_enum; [reflexivity|]. constructor. constructor; [constructor; vm_compute; reflexivity|].
  constructor; [constructor; vm_compute; intuition discriminate|constructor].
Qed.

Example marshal_round_trip_ex : exists l n buf',
  small ex_ty /\ layout_new ex_ty = Ret l /\ marshallable Debug l /\ presents ex_src ex_ty [] ex_val /\
  encoding_size_with_source ex_src l = Ret n /\ encode_with_source Debug ex_src l (repeat xff 40) = Ret (buf', n) /\ n = 24 /\
  get_primitive Debug l buf' PI16 [1; 1; 1] = Ret (-3)%Z /\ get_bytes Debug l buf' [1; 1; 0] = Ret [x41; x42].
Proof.
  eexists _, _, _. split; [vm_compute; reflexivity|]. split; [vm_compute; reflexivity|].
  split. { eapply (marshallable_type _ ex_ty []).
    - vm_compute; reflexivity.
    - unfold ex_ty. repeat constructor; cbn; unfold bad_case_count; lia.
    - vm_compute. reflexivity. }
  split; [apply every_value_presented, ex_typed|]. split; [vm_compute; reflexivity|]. split; [vm_compute; reflexivity|].
  repeat split; vm_compute; reflexivity.
Qed.

(** C11, C12: totally: for every type without empty aggregates whose enums have a usable number of cases, the layout and the
    size exist, the size is linear in the value, and a buffer of that size is enough. *)
Theorem marshal_round_trip_total : forall pf src t v,
  inhabited_type t -> small t -> all_enums good_case_count t -> presents src t [] v -> typed t v ->
  (Z.of_nat (val_size v) < 2 ^ 57)%Z ->
  exists l n, layout_new t = Ret l /\ encoding_size_with_source src l = Ret n /\ n <= 64 * val_size v /\
    forall buf, n <= length buf ->
    exists buf', encode_with_source pf src l buf = Ret (buf', n) /\ presents (marshaller_source pf l buf') t [] v.
Proof. exact round_trip_total. Qed.
Print Assumptions marshal_round_trip_total.

Example marshal_round_trip_total_ex :
  inhabited_type ex_ty /\ small ex_ty /\ all_enums good_case_count ex_ty /\ presents ex_src ex_ty [] ex_val /\
  typed ex_ty ex_val /\ (Z.of_nat (val_size ex_val) < 2 ^ 57)%Z.
Proof.
  split. { unfold ex_ty. repeat (constructor; try discriminate). }
  split; [vm_compute; reflexivity|].
  split. { unfold ex_ty. repeat constructor; cbn; unfold bad_case_count; lia. }
  split; [apply every_value_presented, ex_typed|]. split; [apply ex_typed|vm_compute; reflexivity].
Qed.

(** C11: every value of a type has a source that presents it. *)
Theorem every_value_has_a_source : forall t v, typed t v -> exists src, presents src t [] v.
Proof. exact (fun t v H => ex_intro _ _ (every_value_presented t v H)). Qed.
Print Assumptions every_value_has_a_source.

Example every_value_has_a_source_ex : typed ex_ty ex_val.
Proof. exact ex_typed. Qed.

(** C12: the predicted size is a multiple of the alignment, is what encoding returns and what is later computed from the
    bytes; encoding succeeds and changes no byte from there on. *)
Theorem encoded_size_exact : forall pf src t l v n buf,
  small t -> layout_new t = Ret l -> marshallable pf l -> presents src t [] v -> typed t v ->
  encoding_size_with_source src l = Ret n -> n <= length buf ->
  Nat.divide (l_align l) n /\
  exists buf', encode_with_source pf src l buf = Ret (buf', n) /\ length buf' = length buf /\
    skipn n buf' = skipn n buf /\
    forall data, n <= length data -> firstn n data = firstn n buf' -> encoding_size pf l data = Ret n.
Proof. exact size_and_frame. Qed.
Print Assumptions encoded_size_exact.

Example encoded_size_exact_ex : exists l buf',
  layout_new ex_ty = Ret l /\ l_align l = 8 /\ encoding_size_with_source ex_src l = Ret 24 /\
  encode_with_source Release ex_src l (repeat xff 30) = Ret (buf', 24) /\ skipn 24 buf' = repeat xff 6 /\
  encoding_size Release l buf' = Ret 24.
Proof. eexists _, _. repeat (split; [vm_compute; reflexivity|]). vm_compute. reflexivity. Qed.

(** C13: a buffer shorter than the fixed part is detected. *)
Theorem short_fixed_part_panics : forall pf src l buf,
  length buf < l_var_off l -> encode_with_source pf src l buf = Panic.
Proof. exact short_fixed_panics. Qed.
Print Assumptions short_fixed_part_panics.

Example short_fixed_part_panics_ex : exists l, layout_new ex_ty = Ret l /\ length (repeat x00 7) < l_var_off l.
Proof. eexists. split; [vm_compute; reflexivity|vm_compute; lia]. Qed.

(** C13: a buffer too short for the string at the end of the record is written past its end. [off] is the size of the
    record without that string (and without padding). *)
Theorem short_string_is_overrun : forall pf src t l v al vs w off bs buf,
  small t -> layout_new t = Ret l -> marshallable pf l -> presents src t [] v -> typed t v ->
  l_vars l = vs ++ [w] -> v_kind w = VString -> src_bytes src (v_path w) = Ret bs ->
  encoding_size_with_source src (Layout al (l_var_off l) (l_indices l) (l_fixed l) vs) = Ret off -> al = 1 ->
  off <= length buf -> length buf < off + length bs ->
  encode_with_source pf src l buf = Undef.
Proof. exact short_string_overruns. Qed.
Print Assumptions short_string_is_overrun.

Example short_string_is_overrun_ex : exists l vs w,
  layout_new ex_ty = Ret l /\ l_vars l = vs ++ [w] /\ v_kind w = VString /\ src_bytes ex_src (v_path w) = Ret [x43] /\
  encoding_size_with_source ex_src (Layout 1 (l_var_off l) (l_indices l) (l_fixed l) vs) = Ret 16 /\
  encode_with_source Debug ex_src l (repeat x00 16) = Undef.
Proof.
  eexists _, [_], _. repeat (split; [vm_compute; reflexivity|]). vm_compute. reflexivity.
Qed.

(** C13: so "an undersized buffer is always detected" fails. *)
Theorem undersized_detected_refuted : exists l buf n src,
  layout_new TString = Ret l /\ encoding_size_with_source src l = Ret n /\ length buf < n /\
  encode_with_source Debug src l buf <> Panic.
Proof.
  eexists _, (repeat x00 5), _, (val_source (VStr (repeat x41 9))).
  split; [vm_compute; reflexivity|]. split; [vm_compute; reflexivity|]. split; [vm_compute; lia|]. vm_compute. discriminate.
Qed.
Print Assumptions undersized_detected_refuted.

(** C14: an enum whose number of cases needs a number of tag bits other than 8, 16, 32, 64 gets its tag stored. *)
Theorem enum_tag_round_trip : forall pf src cs l k buf buf' n,
  (Z.of_nat (length cs) < 2 ^ 64)%Z -> layout_new (TEnum cs) = Ret l -> ~ bad_case_count (length cs) ->
  src_tag src [] = Ret k -> k < length cs -> encode_with_source pf src l buf = Ret (buf', n) ->
  get_case_tag pf l buf' [] = Ret k.
Proof. exact enum_tag_stored. Qed.
Print Assumptions enum_tag_round_trip.

Definition unit_enum (n : nat) : ty := TEnum (repeat ([97%Z], TUnit) n).

Example enum_tag_round_trip_ex :
  ~ bad_case_count 300 /\
  (l <- layout_new (unit_enum 300) ;;
   '(buf', n) <- encode_with_source Debug (val_source (VCase 299 VUnit)) l (repeat xff 8) ;;
   k <- get_case_tag Debug l buf' [] ;; Ret (n, k)) = Ret (2, 299).
Proof. split; [unfold bad_case_count; lia|vm_compute; reflexivity]. Qed.

(** C14: with 129-256, 32769-65536, ... cases every encode panics in a debug build. *)
Theorem full_width_tag_debug_panics : forall src cs l k buf,
  (Z.of_nat (length cs) < 2 ^ 64)%Z -> layout_new (TEnum cs) = Ret l -> bad_case_count (length cs) ->
  src_tag src [] = Ret k -> encode_with_source Debug src l buf = Panic.
Proof. exact enum_tag_debug. Qed.
Print Assumptions full_width_tag_debug_panics.

Example full_width_tag_debug_panics_ex :
  bad_case_count 129 /\
  (l <- layout_new (unit_enum 129) ;; Ret (encode_with_source Debug (val_source (VCase 0 VUnit)) l (repeat x00 8))) = Ret Panic.
Proof. split; [unfold bad_case_count; lia|vm_compute; reflexivity]. Qed.

(** C14: ... and in a release build the fixed part is left as it was: the tag read back is whatever the buffer held. *)
Theorem full_width_tag_release_lost : forall src cs l k buf buf' n,
  (Z.of_nat (length cs) < 2 ^ 64)%Z -> layout_new (TEnum cs) = Ret l -> bad_case_count (length cs) ->
  src_tag src [] = Ret k -> encode_with_source Release src l buf = Ret (buf', n) ->
  firstn (l_var_off l) buf' = firstn (l_var_off l) buf /\
  get_case_tag Release l buf' [] = get_case_tag Release l buf [].
Proof. exact enum_tag_release. Qed.
Print Assumptions full_width_tag_release_lost.

Example full_width_tag_release_lost_ex :
  (l <- layout_new (unit_enum 129) ;;
   '(buf', n) <- encode_with_source Release (val_source (VCase 3 VUnit)) l (repeat x07 8) ;;
   k <- get_case_tag Release l buf' [] ;; Ret (n, k)) = Ret (1, 7).
Proof. vm_compute. reflexivity. Qed.

(** C14: for records in general, a tag field of the record that fills its container, or (for single-case enums) starts
    at its end, makes every encode panic in a debug build. *)
Theorem unstorable_tag_debug_panics : forall src t l v buf,
  small t -> layout_new t = Ret l -> presents src t [] v -> typed t v ->
  ~ Forall (storable Debug) (l_fixed l) -> encode_with_source Debug src l buf = Panic.
Proof. exact (fun src t l v buf Hs Hl => debug_encode_panics src t [] l v buf Hs Hl). Qed.
Print Assumptions unstorable_tag_debug_panics.

(** Eight one-bit tags and the empty tag of a single-case enum share a byte. *)
Example unstorable_tag_debug_panics_ex :
  let t := TTuple (repeat (unit_enum 2) 8 ++ [unit_enum 1]) in
  let v := VTuple (repeat (VCase 1 VUnit) 8 ++ [VCase 0 VUnit]) in
  typed t v /\ exists l, layout_new t = Ret l /\ ~ Forall (storable Debug) (l_fixed l).
Proof.
  cbv zeta. split.
  - constructor. cbn [repeat app]. repeat (constructor; [eapply ty_enum; [reflexivity|constructor]|]). constructor.
  - eexists. split; [vm_compute; reflexivity|]. intros HF. rewrite Forall_forall in HF.
    pose (f := {| f_path := [8]; f_kind := FBit PU8 8 0; f_offset := 0 |}).
    assert (Hf : storable Debug f). { apply HF. cbn [l_fixed In]. tauto. }
    destruct Hf as [_ Hf]. specialize (Hf eq_refl). cbn in Hf. lia.
Qed.

(** C15: a marshaller over an encoded record answers like the original source; re-encoding it into any buffer, in
    either build, gives the very same result. *)
Theorem encoded_record_is_faithful_source : forall pf src t l v n buf buf',
  small t -> layout_new t = Ret l -> marshallable pf l -> presents src t [] v -> typed t v ->
  encoding_size_with_source src l = Ret n -> n <= length buf -> encode_with_source pf src l buf = Ret (buf', n) ->
  presents (marshaller_source pf l buf') t [] v /\
  encoding_size_with_source (marshaller_source pf l buf') l = Ret n /\
  forall pf' other, encode_with_source pf' (marshaller_source pf l buf') l other = encode_with_source pf' src l other.
Proof. exact reencode. Qed.
Print Assumptions encoded_record_is_faithful_source.

Example encoded_record_is_faithful_source_ex : exists l buf',
  layout_new ex_ty = Ret l /\ encode_with_source Debug ex_src l (repeat xff 24) = Ret (buf', 24) /\
  encode_with_source Debug (marshaller_source Debug l buf') l (repeat xff 24) = Ret (buf', 24).
Proof. eexists _, _. repeat (split; [vm_compute; reflexivity|]). vm_compute. reflexivity. Qed.
