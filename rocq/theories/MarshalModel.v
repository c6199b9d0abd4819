(** * Model of core/marshaller.rs: record layouts, encoding and reading

    Buffers are [list byte]; functions taking [&mut [u8]] return the new buffer. [usize] values are [nat]. The
    narrowing casts [num_bits as u8] and [offsets[index] as u8] lose nothing (tags have at most 64 bits and
    containers at most 128) and are left out. [sort_by] is a stable insertion sort; [HashMap]/[BTreeMap] built by
    [collect] are association lists where the last entry for a key counts. Raw accesses have their x86 meaning:
    unaligned is fine, outside the slice is [Undef]. *)

From Verif Require Import Base UtilModel StrModel TypesModel.

(** ** Sources *)

(** src/core/data_source.rs:33-62 [trait DataSource]: the fourteen typed getters are one function of the primitive
    type. Values of primitive types are in [Z]: 0/1 for bool, the scalar value for char, the bit pattern for
    floats. *)
Record source : Type := {
  src_prim : prim -> path -> outcome Z;
  src_tag : path -> outcome nat;
  src_len : path -> outcome nat;
  src_bytes : path -> outcome (list byte)
}.

(** ** Layouts *)

(** src/core/marshaller.rs:40-52 [FixedSizeFieldKind]. *)
Inductive fkind : Type :=
| FPrim (p : prim)
| FLength
| FContainer (index : nat) (p : prim)
| FBit (p : prim) (bit_offset num_bits : nat).

(** src/core/marshaller.rs:65-72 [FixedSizeField]. *)
Record ffield : Type := { f_path : path; f_kind : fkind; f_offset : nat }.

(** src/core/marshaller.rs:74-79 [Bitfield]. *)
Record bitf : Type := { b_path : path; b_off : nat; b_bits : nat; b_index : nat }.

(** src/core/marshaller.rs:81-90 [FixedSizeField::encoding_size]. *)
Definition field_size (f : ffield) : nat :=
  match f_kind f with
  | FLength => 4
  | FPrim p | FContainer _ p | FBit p _ _ => prim_size p
  end.

(** src/core/marshaller.rs:54-63 [FixedSizeFieldKind::encoding_size]. *)
Definition kind_size (k : fkind) : outcome nat :=
  match k with
  | FLength => Ret 4
  | FPrim p | FContainer _ p => Ret (prim_size p)
  | FBit _ _ _ => Panic
  end.

(** src/core/marshaller.rs:93-105 [VariableSizeFieldKind], [VariableSizeField], over the type of layouts. *)
Inductive vkind (L : Type) : Type :=
| VString
| VEnum (cases : list L).
Arguments VString {L}.
Arguments VEnum {L} cases.

Record vfield (L : Type) : Type := { v_path : path; v_fixed : nat; v_kind : vkind L }.
Arguments v_path {L}. Arguments v_fixed {L}. Arguments v_kind {L}.

(** src/core/marshaller.rs:120-125 [Index]. *)
Record index : Type := { i_path : path; i_fixed : nat; i_var : nat }.

(** src/core/marshaller.rs:383-401 [Layout]. *)
Inductive layout : Type :=
| Layout (alignment var_off : nat) (indices : list index) (fixed : list ffield) (vars : list (vfield layout)).

Definition l_align (l : layout) : nat := let '(Layout a _ _ _ _) := l in a.
Definition l_var_off (l : layout) : nat := let '(Layout _ o _ _ _) := l in o.
Definition l_indices (l : layout) : list index := let '(Layout _ _ i _ _) := l in i.
Definition l_fixed (l : layout) : list ffield := let '(Layout _ _ _ f _) := l in f.
Definition l_vars (l : layout) : list (vfield layout) := let '(Layout _ _ _ _ v) := l in v.

(** src/core/marshaller.rs:107-118 [VariableSizeField::alignment]. *)
Definition vfield_align (v : vfield layout) : nat :=
  match v_kind v with
  | VString => 1
  | VEnum [] => 1
  | VEnum (c :: cs) => fold_left Nat.max (map l_align cs) (l_align c)
  end.

(** Rust's stable [sort_by] with the comparison of keys reversed: descending, equal keys keep their order. *)
Section Sort.
Context {A : Type} (less : A -> A -> bool). (* [less a b]: key of [a] below key of [b] *)
Fixpoint insert_desc (a : A) (l : list A) : list A :=
  match l with
  | [] => [a]
  | b :: l' => if less a b then b :: insert_desc a l' else a :: l
  end.
Fixpoint sort_desc (l : list A) : list A :=
  match l with
  | [] => []
  | a :: l' => insert_desc a (sort_desc l')
  end.
End Sort.

(** src/core/marshaller.rs:204-218 [primitive_for_bits]. *)
Definition primitive_for_bits (num_bits : nat) : outcome prim :=
  check (num_bits <=? 128) ;;
  Ret (if 64 <? num_bits then PU128
       else if 32 <? num_bits then PU64
       else if 16 <? num_bits then PU32
       else if 8 <? num_bits then PU16
       else PU8).

(** A container of [allocate_bitfields] with its entries of the vectors [capacity] and [offsets]. *)
Record cont : Type := { c_prim : prim; c_cap : nat; c_off : nat }.

(** Inner loop of [allocate_bitfields], src/core/marshaller.rs:235-244: the first container with room, numbered
    from [k]. *)
Fixpoint place (cs : list cont) (k num_bits : nat) : option (nat * nat * list cont) :=
  match cs with
  | [] => None
  | c :: cs' =>
      if num_bits <=? c_cap c then
        Some (k, c_off c, {| c_prim := c_prim c; c_cap := c_cap c - num_bits; c_off := c_off c + num_bits |} :: cs')
      else match place cs' (S k) num_bits with
           | Some (i, o, cs1) => Some (i, o, c :: cs1)
           | None => None
           end
  end.

(** Outer loop of [allocate_bitfields], src/core/marshaller.rs:227-257, over the sorted fields. *)
Fixpoint alloc (bs : list bitf) (cs : list cont) : outcome (list bitf * list cont) :=
  match bs with
  | [] => Ret ([], cs)
  | b :: bs' =>
      match place cs 0 (b_bits b) with
      | Some (i, o, cs1) =>
          '(r, cs2) <- alloc bs' cs1 ;;
          Ret ({| b_path := b_path b; b_off := o; b_bits := b_bits b; b_index := i |} :: r, cs2)
      | None =>
          p <- primitive_for_bits (b_bits b) ;;
          cap <- usub (prim_size p * 8) (b_bits b) ;;
          '(r, cs2) <- alloc bs' (cs ++ [{| c_prim := p; c_cap := cap; c_off := b_bits b |}]) ;;
          Ret ({| b_path := b_path b; b_off := 0; b_bits := b_bits b; b_index := length cs |} :: r, cs2)
      end
  end.

(** The field pushed for each new container, src/core/marshaller.rs:248-252. *)
Definition cont_field (i : nat) (p : prim) : ffield :=
  {| f_path := []; f_kind := FContainer i p; f_offset := 0 |}.

Fixpoint cont_fields (k : nat) (cs : list cont) : list ffield :=
  match cs with
  | [] => []
  | c :: cs' => cont_field k (c_prim c) :: cont_fields (S k) cs'
  end.

(** src/core/marshaller.rs:220-260 [allocate_bitfields]: the updated, sorted bit fields and the container fields. *)
Definition allocate_bitfields (bs : list bitf) : outcome (list bitf * list ffield) :=
  '(r, cs) <- alloc (sort_desc (fun a b => b_bits a <? b_bits b) bs) [] ;;
  Ret (r, cont_fields 0 cs).

(** The offset loop, src/core/marshaller.rs:287-292. *)
Fixpoint assign_offsets (fs : list ffield) (size : nat) : outcome (list ffield * nat) :=
  match fs with
  | [] => Ret ([], size)
  | f :: fs' =>
      s <- kind_size (f_kind f) ;;
      '(r, total) <- assign_offsets fs' (size + s) ;;
      Ret ({| f_path := f_path f; f_kind := f_kind f; f_offset := size |} :: r, total)
  end.

Definition is_container (f : ffield) : bool :=
  match f_kind f with FContainer _ _ => true | _ => false end.

(** [offset_map.get(&i)], src/core/marshaller.rs:311-319. *)
Definition find_container (fs : list ffield) (i : nat) : outcome (nat * prim) :=
  match find (fun f => match f_kind f with FContainer j _ => j =? i | _ => false end) (rev fs) with
  | Some f => match f_kind f with FContainer _ p => Ret (f_offset f, p) | _ => Panic end
  | None => Panic
  end.

(** The map over the bit fields, src/core/marshaller.rs:327-338. *)
Fixpoint bit_fields_to_fixed (fs : list ffield) (bs : list bitf) : outcome (list ffield) :=
  match bs with
  | [] => Ret []
  | b :: bs' =>
      '(o, p) <- find_container fs (b_index b) ;;
      r <- bit_fields_to_fixed fs bs' ;;
      Ret ({| f_path := b_path b; f_kind := FBit p (b_off b) (b_bits b); f_offset := o |} :: r)
  end.

(** src/core/marshaller.rs:343-351: one index entry per fixed field. *)
Fixpoint make_indices (k : nat) (fs : list ffield) : list index :=
  match fs with
  | [] => []
  | f :: fs' => {| i_path := f_path f; i_fixed := k; i_var := 0 |} :: make_indices (S k) fs'
  end.

(** [binary_search_by] on indices sorted by descending path, with the comparison reversed. The result of the
    library function is determined only when the indices are strictly sorted (proved for all layouts: C10);
    [Ok i] is then the position of the path, [Err i] the position where it would be inserted. *)
Fixpoint search_from (k : nat) (ix : list index) (q : path) : result nat nat :=
  match ix with
  | [] => Err k
  | x :: ix' =>
      match path_cmp (i_path x) q with
      | Gt => search_from (S k) ix' q
      | Eq => Ok k
      | Lt => Err k
      end
  end.
Definition search (ix : list index) (q : path) : result nat nat := search_from 0 ix q.

Fixpoint update {A} (l : list A) (i : nat) (f : A -> A) : list A :=
  match l, i with
  | [], _ => []
  | a :: l', O => f a :: l'
  | a :: l', S i' => a :: update l' i' f
  end.

Definition set_var (v : nat) (x : index) : index := {| i_path := i_path x; i_fixed := i_fixed x; i_var := v |}.

(** [lookup.get(path)], src/core/marshaller.rs:355-358. *)
Definition lookup_fixed (ix : list index) (q : path) : outcome nat :=
  match find (fun x => path_eqb (i_path x) q) (rev ix) with
  | Some x => Ret (i_fixed x)
  | None => Panic
  end.

(** The back-pointer loop, src/core/marshaller.rs:360-373. [lookup] was built before the loop from the same paths
    and fixed indices. *)
Fixpoint link_vars (k : nat) (vs : list (vfield layout)) (ix : list index)
  : outcome (list (vfield layout) * list index) :=
  match vs with
  | [] => Ret ([], ix)
  | v :: vs' =>
      match search ix (v_path v) with
      | Ok i =>
          fi <- lookup_fixed ix (v_path v) ;;
          '(r, ix') <- link_vars (S k) vs' (update ix i (set_var k)) ;;
          Ret ({| v_path := v_path v; v_fixed := fi; v_kind := v_kind v |} :: r, ix')
      | Err _ => Panic
      end
  end.

(** What [unroll_type] collects. *)
Definition unrolled : Type := (list ffield * list bitf * list (vfield layout))%type.

(** src/core/marshaller.rs:275-380: [calculate_layout] after the call of [unroll_type]. *)
Definition finish_layout (u : unrolled) : outcome layout :=
  let '(fx, bs, vs) := u in
  '(bits, conts) <- allocate_bitfields bs ;;
  let sorted := sort_desc (fun l r => field_size l <? field_size r) (fx ++ conts) in
  let vars := sort_desc (fun l r => vfield_align l <? vfield_align r) vs in
  '(placed, size) <- assign_offsets sorted 0 ;;
  fixed_align <- match placed with f :: _ => kind_size (f_kind f) | [] => Ret 1 end ;;
  let var_align := match vars with v :: _ => vfield_align v | [] => 1 end in
  let alignment := Nat.max fixed_align var_align in
  size' <- align_nat size var_align ;;
  bfs <- bit_fields_to_fixed placed bits ;;
  let fixed := filter (fun f => negb (is_container f)) placed ++ bfs in
  let ix := sort_desc (fun l r => match path_cmp (i_path l) (i_path r) with Lt => true | _ => false end)
                      (make_indices 0 fixed) in
  '(vars', ix') <- link_vars 0 vars ix ;;
  Ret (Layout alignment size' ix' fixed vars').

(** Loop over the members of a tuple, struct or enum with their paths. *)
Section Members.
Context {A B : Type} (f : A -> path -> outcome B).
Fixpoint members (l : list A) (prefix : path) (k : nat) : outcome (list B) :=
  match l with
  | [] => Ret []
  | a :: l' => b <- f a (prefix ++ [k]) ;; r <- members l' prefix (S k) ;; Ret (b :: r)
  end.
End Members.

Definition concat_unrolled (l : list unrolled) : unrolled :=
  (flat_map (fun u => fst (fst u)) l, flat_map (fun u => snd (fst u)) l, flat_map snd l).

(** src/core/marshaller.rs:127-202 [unroll_type]; the accumulated vectors are returned. *)
Fixpoint unroll_type (t : ty) (prefix : path) : outcome unrolled :=
  match t with
  | TUnit => Ret ([], [], [])
  | TPrim p => Ret ([{| f_path := prefix; f_kind := FPrim p; f_offset := 0 |}], [], [])
  | TString =>
      Ret ([{| f_path := prefix; f_kind := FLength; f_offset := 0 |}], [],
           [{| v_path := prefix; v_fixed := 0; v_kind := VString |}])
  | TTuple ts =>
      check (0 <? length ts) ;;
      us <- members unroll_type ts prefix 0 ;;
      Ret (concat_unrolled us)
  | TStruct fs =>
      check (0 <? length fs) ;;
      us <- members (fun f q => unroll_type (snd f) q) fs prefix 0 ;;
      Ret (concat_unrolled us)
  | TEnum cs =>
      check (0 <? length cs) ;;
      let num_bits := Z.to_nat (required_bits (Z.of_nat (length cs - 1))) in
      ls <- members (fun c q => u <- unroll_type (snd c) q ;; finish_layout u) cs prefix 0 ;;
      Ret ([], [{| b_path := prefix; b_off := 0; b_bits := num_bits; b_index := 0 |}],
           [{| v_path := prefix; v_fixed := 0; v_kind := VEnum ls |}])
  end.

(** src/core/marshaller.rs:262-381 [calculate_layout]. *)
Definition calculate_layout (t : ty) (prefix : path) : outcome layout :=
  u <- unroll_type t prefix ;; finish_layout u.

(** src/core/marshaller.rs:404-407 [Layout::new]. *)
Definition layout_new (t : ty) : outcome layout := calculate_layout t [].

(** ** Reading fields *)

(** Width in bits of an unsigned primitive used as a container. *)
Definition prim_bits (p : prim) : Z := 8 * Z.of_nat (prim_size p).

Definition is_unsigned (p : prim) : bool :=
  match p with PU8 | PU16 | PU32 | PU64 | PU128 => true | _ => false end.
Definition is_signed (p : prim) : bool :=
  match p with PI8 | PI16 | PI32 | PI64 | PI128 => true | _ => false end.

(** Reading a [u32] length, src/core/marshaller.rs:420-424, 774-778, 898-902. *)
Definition read_length (data : list byte) (offset : nat) : outcome nat :=
  bs <- raw_read data offset 4 ;; Ret (Z.to_nat (le_val bs)).

(** Reading a case tag, src/core/marshaller.rs:432-470 and 822-856. *)
Definition read_tag (pf : profile) (f : ffield) (data : list byte) : outcome nat :=
  match f_kind f with
  | FBit p bit_offset num_bits =>
      if is_unsigned p then
        bs <- raw_read data (f_offset f) (prim_size p) ;;
        let case_value := (le_val bs mod 2 ^ 64)%Z in
        v <- wshr pf 64 case_value (Z.of_nat bit_offset) ;;
        m <- wshl pf 64 1 (Z.of_nat num_bits) ;;
        m1 <- wsub pf 64 m 1 ;;
        Ret (Z.to_nat (Z.land v m1))
      else Panic
  | _ => Panic
  end.

(** Meaning of [prim_size p] bytes read as a value of the primitive type. A [bool] other than 0/1 and a [char]
    that is not a scalar value are undefined behaviour. *)
Definition decode_prim (p : prim) (bs : list byte) : outcome Z :=
  let u := le_val bs in
  match p with
  | PBool => if (u <=? 1)%Z then Ret u else Undef
  | PChar => if is_char u then Ret u else Undef
  | _ => if is_signed p && (2 ^ (prim_bits p - 1) <=? u)%Z then Ret (u - 2 ^ prim_bits p)%Z else Ret u
  end.

(** [*(pointer as *const T)], src/core/marshaller.rs:722-725. *)
Definition read_prim (p : prim) (data : list byte) (offset : nat) : outcome Z :=
  bs <- raw_read data offset (prim_size p) ;; decode_prim p bs.

(** Indexing a vector and continuing with the element: [v[i]] panics out of range. *)
Section Pick.
Context {A B : Type} (f : A -> outcome B).
Fixpoint pick (l : list A) (i : nat) : outcome B :=
  match l, i with
  | [], _ => Panic
  | a :: _, O => f a
  | _ :: l', S i' => pick l' i'
  end.
End Pick.

(** Loop of [variable_field_offset], src/core/marshaller.rs:412-480, over some variable fields; [size] is
    [Layout::encoding_size]. *)
Section VarOffset.
Context (pf : profile) (size : layout -> list byte -> outcome nat) (fixed : list ffield) (data : list byte).
Fixpoint var_offset_loop (vs : list (vfield layout)) (offset : nat) : outcome nat :=
  match vs with
  | [] => Ret offset
  | v :: vs' =>
      pick (fun tag_field =>
        match v_kind v with
        | VString =>
            n <- read_length data (f_offset tag_field) ;;
            var_offset_loop vs' (offset + n)
        | VEnum cases =>
            tag <- read_tag pf tag_field data ;;
            case_data <- index_from data offset ;;
            n <- pick (fun c => size c case_data) cases tag ;;
            var_offset_loop vs' (offset + n)
        end) fixed (v_fixed v)
  end.
End VarOffset.

(** src/core/marshaller.rs:485-490 [Layout::encoding_size]. *)
Fixpoint encoding_size (pf : profile) (l : layout) (data : list byte) : outcome nat :=
  match l with
  | Layout al vo ix fx vs =>
      off <- var_offset_loop pf (encoding_size pf) fx data vs vo ;;
      align_nat off al
  end.

(** src/core/marshaller.rs:409-483 [variable_field_offset]. *)
Definition variable_field_offset (pf : profile) (l : layout) (k : nat) (data : list byte) : outcome nat :=
  check (k <=? length (l_vars l)) ;;
  var_offset_loop pf (encoding_size pf) (l_fixed l) data (firstn k (l_vars l)) (l_var_off l).

(** ** Encoding *)

(** src/core/marshaller.rs:492-512 [encoding_size_with_source]. *)
Section SizeLoop.
Context (src : source) (size : layout -> outcome nat).
Fixpoint size_loop (vs : list (vfield layout)) (offset : nat) : outcome nat :=
  match vs with
  | [] => Ret offset
  | v :: vs' =>
      match v_kind v with
      | VString => n <- src_len src (v_path v) ;; size_loop vs' (offset + n)
      | VEnum cases =>
          tag <- src_tag src (v_path v) ;;
          n <- pick size cases tag ;;
          size_loop vs' (offset + n)
      end
  end.
End SizeLoop.

Fixpoint encoding_size_with_source (src : source) (l : layout) : outcome nat :=
  match l with
  | Layout al vo ix fx vs =>
      off <- size_loop src (encoding_size_with_source src) vs vo ;;
      align_nat off al
  end.

(** Loop body over the fixed fields, src/core/marshaller.rs:521-645. *)
Definition encode_fixed (pf : profile) (src : source) (buffer : list byte) (f : ffield) : outcome (list byte) :=
  match f_kind f with
  | FLength =>
      n <- src_len src (f_path f) ;;
      check (Z.of_nat n <=? 2 ^ 32 - 1)%Z ;;
      raw_write buffer (f_offset f) (le_bytes 4 (Z.of_nat n))
  | FBit p bit_offset num_bits =>
      tag <- src_tag src (f_path f) ;;
      if is_unsigned p then
        let w := prim_bits p in
        s <- wshl pf w 1 (Z.of_nat num_bits) ;;
        s1 <- wsub pf w s 1 ;;
        mask <- wshl pf w s1 (Z.of_nat bit_offset) ;;
        bs <- raw_read buffer (f_offset f) (prim_size p) ;;
        t <- wshl pf w (Z.of_nat tag mod 2 ^ w)%Z (Z.of_nat bit_offset) ;;
        raw_write buffer (f_offset f)
          (le_bytes (prim_size p) (Z.lor (Z.land (le_val bs) (unot w mask)) (Z.land t mask)))
      else Panic
  | FPrim p =>
      (* in an assignment the right side comes first: the source is asked before the destination slice is taken *)
      z <- src_prim src p (f_path f) ;;
      raw_write buffer (f_offset f) (le_bytes (prim_size p) z)
  | FContainer _ _ => Panic
  end.

(** Loop over the variable fields, src/core/marshaller.rs:648-663, with [copy_bytes] (669-680) inlined; [enc] is
    [encode_with_source] and returns the new sub-slice and the size. *)
Section VarLoop.
Context (src : source) (enc : layout -> list byte -> outcome (list byte * nat)).
Fixpoint encode_vars (vs : list (vfield layout)) (buffer : list byte) (offset : nat)
  : outcome (list byte * nat) :=
  match vs with
  | [] => Ret (buffer, offset)
  | v :: vs' =>
      match v_kind v with
      | VString =>
          n <- src_len src (v_path v) ;;
          check (offset <=? length buffer) ;;
          bytes <- src_bytes src (v_path v) ;;
          check (n =? length bytes) ;;
          buffer' <- raw_write buffer offset bytes ;;
          encode_vars vs' buffer' (offset + n)
      | VEnum cases =>
          tag <- src_tag src (v_path v) ;;
          sub <- index_from buffer offset ;;
          '(sub', _) <- pick (fun c => enc c sub) cases tag ;;
          n <- pick (encoding_size_with_source src) cases tag ;;
          encode_vars vs' (firstn offset buffer ++ sub') (offset + n)
      end
  end.
End VarLoop.

(** src/core/marshaller.rs:514-666 [encode_with_source]. *)
Fixpoint encode_with_source (pf : profile) (src : source) (l : layout) (buffer : list byte)
  : outcome (list byte * nat) :=
  match l with
  | Layout al vo ix fx vs =>
      check (vo <=? length buffer) ;;
      b1 <- foldM (encode_fixed pf src) fx buffer ;;
      '(b2, off) <- encode_vars src (encode_with_source pf src) vs b1 vo ;;
      n <- align_nat off al ;;
      Ret (b2, n)
  end.

(** ** The marshaller *)

(** The loop shared (by copying) by [get_primitive] 712-748, [get_bytes] 754-803, [get_case_tag] 811-878 and
    [get_length] 886-922: it ends at the layout that has an index entry for the path, with the data of that
    layout and the entry. *)
Fixpoint navigate (pf : profile) (l : layout) (data : list byte) (q : path)
  : outcome (layout * list byte * index) :=
  match l with
  | Layout al vo ix fx vs =>
      match search ix q with
      | Ok i => match nth_error ix i with Some x => Ret (l, data, x) | None => Panic end
      | Err i =>
          match nth_error ix i with
          | Some x =>
              if is_prefix_of (i_path x) q then
                case_tag <- match nth_error q (length (i_path x)) with Some k => Ret k | None => Panic end ;;
                offset <- variable_field_offset pf l (i_var x) data ;;
                data' <- index_from data offset ;;
                pick (fun v => match v_kind v with
                               | VEnum cases => pick (fun c => navigate pf c data' q) cases case_tag
                               | VString => Panic
                               end) vs (i_var x)
              else Panic
          | None => Panic
          end
      end
  end.

Definition fixed_of (l : layout) (x : index) : outcome ffield :=
  match nth_error (l_fixed l) (i_fixed x) with Some f => Ret f | None => Panic end.

Definition prim_eqb (p q : prim) : bool :=
  match p, q with
  | PBool, PBool | PChar, PChar | PU8, PU8 | PU16, PU16 | PU32, PU32 | PU64, PU64 | PU128, PU128
  | PI8, PI8 | PI16, PI16 | PI32, PI32 | PI64, PI64 | PI128, PI128 | PF32, PF32 | PF64, PF64 => true
  | _, _ => false
  end.

(** src/core/marshaller.rs:705-749 [get_primitive]; [T::tag()] is [p]. *)
Definition get_primitive (pf : profile) (l : layout) (data : list byte) (p : prim) (q : path) : outcome Z :=
  '(l', d, x) <- navigate pf l data q ;;
  f <- fixed_of l' x ;;
  match f_kind f with
  | FPrim p' => if prim_eqb p' p then read_prim p d (f_offset f) else Panic
  | _ => Panic
  end.

(** src/core/marshaller.rs:751-804 [get_bytes]; the slice made by [from_raw_parts] must lie inside the data. *)
Definition get_bytes (pf : profile) (l : layout) (data : list byte) (q : path) : outcome (list byte) :=
  '(l', d, x) <- navigate pf l data q ;;
  f <- fixed_of l' x ;;
  offset <- variable_field_offset pf l' (i_var x) d ;;
  n <- match f_kind f with FLength => read_length d (f_offset f) | _ => Panic end ;;
  match nth_error (l_vars l') (i_var x) with
  | Some v => match v_kind v with VString => raw_read d offset n | VEnum _ => Panic end
  | None => Panic
  end.

(** src/core/marshaller.rs:808-879 [get_case_tag]. *)
Definition get_case_tag (pf : profile) (l : layout) (data : list byte) (q : path) : outcome nat :=
  '(l', d, x) <- navigate pf l data q ;;
  f <- fixed_of l' x ;;
  read_tag pf f d.

(** src/core/marshaller.rs:883-923 [get_length]. *)
Definition get_length (pf : profile) (l : layout) (data : list byte) (q : path) : outcome nat :=
  '(l', d, x) <- navigate pf l data q ;;
  f <- fixed_of l' x ;;
  match f_kind f with FLength => read_length d (f_offset f) | _ => Panic end.

(** src/core/marshaller.rs:926-976 [MarshallerDataSource]: an encoded record as a source. *)
Definition marshaller_source (pf : profile) (l : layout) (data : list byte) : source := {|
  src_prim := get_primitive pf l data;
  src_tag := get_case_tag pf l data;
  src_len := get_length pf l data;
  src_bytes := get_bytes pf l data
|}.
