(** * C95: the files, the mirror and the bitmap of a new volume *)

From Coq Require Import Strings.String.
From Verif Require Import Base StorageModel StorageSpec FileTableModel FileTableSpec FileTableProofs.
From Verif Require FormatSpec.
Local Open Scope Z_scope.

(** The 16 reserved files have the indices 0 to 15, different names, and names short enough for the header. *)
Theorem reserved_file_names : forall g,
  map f_index (reserved_files g) = map Z.of_nat (seq 0 16) /\
  NoDup (map f_name (reserved_files g)) /\
  Forall (fun f => (length (f_name f) <= 255)%nat) (reserved_files g).
Proof.
  intros g. split; [reflexivity|]. split.
  - change (map f_name (reserved_files g)) with
      (map f_name (reserved_files {| g_block_size := 0; g_file_table_offset := 0; g_file_table_size := 0;
         g_file_table_blocks := 0; g_mirror_offset := 0; g_bitmap_offset := 0; g_bitmap_bits := 0; g_bitmap_size := 0;
         g_bitmap_blocks := 0; g_total_allocated := 0 |})).
    vm_compute. repeat (apply NoDup_cons; [cbn; intuition discriminate|]). apply NoDup_nil.
  - unfold reserved_files. apply Forall_app. split; repeat (apply Forall_cons; [apply Nat.leb_le; vm_compute; reflexivity|]);
      apply Forall_nil.
Qed.
Print Assumptions reserved_file_names.

Example reserved_file_names_ex : exists g,
  geometry_of Debug {| volume_size := 2 ^ 30; log_block_size := 12; log_file_header_size := 10 |} = Ret g /\
  map f_name (reserved_files g) =
    map list_byte_of_string
      ["$file_table_0"; "$file_table_1"; "$allocation_bitmap"; "$journal"; "$volume_header"; "$reserved_5";
       "$reserved_6"; "$reserved_7"; "$reserved_8"; "$reserved_9"; "$reserved_10"; "$reserved_11"; "$reserved_12";
       "$reserved_13"; "$reserved_14"; "$reserved_15"]%string.
Proof. eexists. split; [vm_compute; reflexivity|]. vm_compute. reflexivity. Qed.

(** Each is given just the blocks that hold it. *)
Theorem reserved_file_blocks : forall prm g,
  0 <= log_block_size prm -> 0 <= log_file_header_size prm -> 0 <= volume_size prm ->
  geometry_of Debug prm = Ret g -> g_total_allocated g < 2 ^ 32 ->
  Forall (fun f => match f_extent f with
                   | Some x => holds_just (2 ^ log_block_size prm) (f_size f) (x_blocks x)
                   | None => f_size f = 0
                   end) (reserved_files g).
Proof. exact reserved_extents. Qed.
Print Assumptions reserved_file_blocks.

(** No block is given to two of them, except that the bitmap is given blocks of the mirror in every volume. *)
Theorem reserved_files_overlap : forall prm g,
  0 <= log_block_size prm -> 0 <= log_file_header_size prm -> 0 <= volume_size prm ->
  geometry_of Debug prm = Ret g -> g_total_allocated g < 2 ^ 32 ->
  forall f f' x x', In f (reserved_files g) -> In f' (reserved_files g) -> f_index f < f_index f' ->
  f_extent f = Some x -> f_extent f' = Some x' ->
  (shares_block x x' <-> f_index f = 1 /\ f_index f' = 2 /\ 1 <= log_block_size prm /\ 0 < volume_size prm).
Proof. exact extents_shared. Qed.
Print Assumptions reserved_files_overlap.

Example reserved_files_ex : exists g,
  geometry_of Debug {| volume_size := 2 ^ 30; log_block_size := 12; log_file_header_size := 10 |} = Ret g /\
  g_total_allocated g = 17 /\
  map f_extent (firstn 5 (reserved_files g)) =
    [Some {| x_block := 1; x_blocks := 4 |}; Some {| x_block := 5; x_blocks := 4 |};
     Some {| x_block := 5; x_blocks := 8 |}; None; Some {| x_block := 0; x_blocks := 1 |}] /\
  map f_size (firstn 5 (reserved_files g)) = [16384; 16384; 32768; 0; 4096].
Proof. eexists. split; [vm_compute; reflexivity|]. vm_compute. auto. Qed.

(** The mirror becomes a copy of the file table, and nothing else changes. *)
Theorem file_table_mirrored : forall p index prm g st,
  0 <= index < 2 ^ 8 ->
  0 <= log_block_size prm -> 0 <= log_file_header_size prm -> 0 <= volume_size prm ->
  geometry_of Debug prm = Ret g ->
  let bs := 2 ^ log_block_size prm in
  let t := g_file_table_blocks g in
  g_mirror_offset g + t * bs <= 2 ^ 56 ->
  (forall l, Z.of_nat (length (st l)) = bs) ->
  exists st', mirror_table p index g st = Ret st' /\
    (forall k, 0 <= k < t ->
       st' (place index (g_mirror_offset g + k * bs)) = st (place index (g_file_table_offset g + k * bs))) /\
    untouched index (g_mirror_offset g) bs t st st'.
Proof. exact table_mirrored. Qed.
Print Assumptions file_table_mirrored.

Example file_table_mirrored_ex :
  match geometry_of Debug {| volume_size := 2 ^ 16; log_block_size := 6; log_file_header_size := 6 |} with
  | Ret g =>
      g_file_table_blocks g = 16 /\ g_mirror_offset g = 1088 /\
      match mirror_table Debug 3 g (fun l => repeat (z2b (l / 64)) 64) with
      | Ret st' => st' (3 * 2 ^ 56 + 1088) = repeat Byte.x01 64 /\ st' (3 * 2 ^ 56 + 1088 + 15 * 64) = repeat Byte.x10 64
      | _ => False
      end
  | _ => False
  end.
Proof. vm_compute. auto. Qed.

(** The pages of the bitmap hold its bits in order, and nothing else changes. *)
Theorem bitmap_on_pages : forall p index prm g st,
  0 <= index < 2 ^ 8 ->
  4 <= log_block_size prm <= 32 -> 0 <= log_file_header_size prm -> 0 <= volume_size prm < 2 ^ 64 ->
  geometry_of Debug prm = Ret g ->
  let bs := 2 ^ log_block_size prm in
  g_bitmap_offset g + g_bitmap_blocks g * bs <= 2 ^ 56 ->
  (forall l, Z.of_nat (length (st l)) = bs) ->
  exists bm st', bitmap p g = Ret bm /\ store_bitmap p index g st = Ret st' /\
    (forall k j, 0 <= k < g_bitmap_blocks g -> (Z.of_nat j < 8 * bs) ->
       FormatSpec.bit_of (st' (place index (g_bitmap_offset g + k * bs))) j =
       bit_of bm (Z.to_nat (8 * bs * k) + j)) /\
    untouched index (g_bitmap_offset g) bs (g_bitmap_blocks g) st st'.
Proof. exact bitmap_stored. Qed.
Print Assumptions bitmap_on_pages.

Example bitmap_on_pages_ex :
  match geometry_of Debug {| volume_size := 2 ^ 16; log_block_size := 6; log_file_header_size := 6 |} with
  | Ret g =>
      g_bitmap_blocks g = 2 /\ g_total_allocated g = 35 /\ g_bitmap_offset g = 1104 /\
      match store_bitmap Debug 0 g (fun _ => repeat Byte.x00 64) with
      | Ret st' => firstn 6 (st' 1104) = [Byte.x00; Byte.x00; Byte.x00; Byte.x00; Byte.xf8; Byte.xff]
      | _ => False
      end
  | _ => False
  end.
Proof. vm_compute. auto. Qed.

(** The size of the pages of the pool is nowhere compared with that of the blocks: with smaller pages the bitmap is written
    beyond a page. *)
Theorem bitmap_within_page_refuted : exists prm g st,
  geometry_of Debug prm = Ret g /\ (forall l, length (st l) = 4096%nat) /\ store_bitmap Debug 0 g st = Undef.
Proof.
  exists {| volume_size := 2 ^ 20; log_block_size := 13; log_file_header_size := 10 |}. eexists. exists (fun _ => repeat Byte.x00 4096).
  split; [vm_compute; reflexivity|]. split; [intros _; apply repeat_length|]. vm_compute. reflexivity.
Qed.
Print Assumptions bitmap_within_page_refuted.

(** Writing the attributes never succeeds: the name is copied into all of the buffer that is left, so there is no room
    for the rest; in buffers one or two bytes longer than the header it writes beyond the end. *)
Theorem attributes_never : forall p buffer name size ext,
  Z.of_nat (length buffer) < 2 ^ 50 -> Z.of_nat (length name) < 2 ^ 50 ->
  (attributes p buffer name size ext = Undef <->
   (length buffer = 41 \/ length buffer = 42 /\ length name <= 255)%nat) /\
  (attributes p buffer name size ext <> Undef -> attributes p buffer name size ext = Panic).
Proof.
  intros p buffer name size ext Hb Hn. rewrite (attributes_cases p buffer name size ext Hb Hn).
  destruct (Nat.eqb_spec (length buffer) 41); cbn [orb]; [intuition|].
  destruct (Nat.eqb_spec (length buffer) 42); cbn [andb]; [|intuition discriminate].
  destruct (Nat.leb_spec (length name) 255); intuition (try discriminate); lia.
Qed.
Print Assumptions attributes_never.

Example attributes_never_ex :
  attributes Release (repeat Byte.x00 1024) (list_byte_of_string "$journal") 0 None = Panic /\
  attributes Release (repeat Byte.x00 51) (list_byte_of_string "$journal") 0 None = Panic /\
  attributes Release (repeat Byte.x00 41) (list_byte_of_string "$journal") 0 None = Undef.
Proof. vm_compute. auto. Qed.

(** Creating a volume never succeeds, whatever the size of the pages. *)
Theorem create_whole_never : forall p e seconds nanos pad st m prm,
  0 <= log_file_header_size prm -> length pad = 4%nat -> (forall l, e_access e l <> Undef) ->
  snd (create_whole p e seconds nanos pad st m prm) = Panic \/
  snd (create_whole p e seconds nanos pad st m prm) = Ret (Err tt).
Proof. exact create_whole_panics. Qed.
Print Assumptions create_whole_never.

Example create_whole_never_ex :
  let e := {| e_open := true; e_set_len := true; e_uuid := repeat Byte.x00 16; e_pad := repeat Byte.x00 4;
              e_access := fun _ => Ret (repeat Byte.x00 48) |} in
  let prm := {| volume_size := 2 ^ 16; log_block_size := 6; log_file_header_size := 6 |} in
  snd (create Release e (fun _ _ _ _ => Ret tt) (set_buffer_pool manager_new) prm) = Ret (Ok 0) /\
  snd (create_whole Release e 1 0 (repeat Byte.x00 4) (fun _ => repeat Byte.x00 64) (set_buffer_pool manager_new) prm) = Panic.
Proof. vm_compute. auto. Qed.
