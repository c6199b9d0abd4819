(** * Properties C37-C39, C43-C45, C51 and C64 *)

From Verif Require Import Base UtilModel PowerSpec PowerFacts StorageModel StorageSpec ListPtr StorageProofs VolumeProofs HeaderProofs.
Local Open Scope Z_scope.

(** ** C37 *)

(** Every index and offset below 2^56 can be packed and read back. *)
Theorem location_round_trip : forall index offset, 0 <= index < 2 ^ 8 -> 0 <= offset < 2 ^ 56 ->
  exists l, location_new index offset = Ret l /\ 0 <= l < 2 ^ 64 /\
    location_index l = index /\ location_offset l = offset.
Proof. exact location_fields. Qed.
Print Assumptions location_round_trip.

Example location_round_trip_ex :
  location_new 3 4096 = Ret (3 * 2 ^ 56 + 4096) /\
  location_index (3 * 2 ^ 56 + 4096) = 3 /\ location_offset (3 * 2 ^ 56 + 4096) = 4096.
Proof. vm_compute. auto. Qed.

(** Different pairs give different locations. *)
Theorem location_distinct : forall i1 o1 i2 o2 l,
  0 <= i1 < 2 ^ 8 -> 0 <= i2 < 2 ^ 8 -> 0 <= o1 < 2 ^ 64 -> 0 <= o2 < 2 ^ 64 ->
  location_new i1 o1 = Ret l -> location_new i2 o2 = Ret l -> i1 = i2 /\ o1 = o2.
Proof. exact location_injective. Qed.
Print Assumptions location_distinct.

Example location_distinct_ex : location_new 1 0 = Ret (2 ^ 56) /\ location_new 0 (2 ^ 56 - 1) = Ret (2 ^ 56 - 1).
Proof. vm_compute. auto. Qed.

(** Larger offsets are rejected. *)
Theorem location_overflow : forall index offset, 2 ^ 56 <= offset < 2 ^ 64 -> location_new index offset = Panic.
Proof. exact location_too_large. Qed.
Print Assumptions location_overflow.

Example location_overflow_ex : 2 ^ 56 <= 2 ^ 56 < 2 ^ 64 /\ location_new 0 (2 ^ 56) = Panic.
Proof. vm_compute. intuition discriminate. Qed.

(** Every 64-bit number is the location of its parts. *)
Theorem location_complete : forall l, 0 <= l < 2 ^ 64 ->
  location_new (location_index l) (location_offset l) = Ret l.
Proof. exact location_onto. Qed.
Print Assumptions location_complete.

Example location_complete_ex :
  location_index (2 ^ 64 - 1) = 255 /\ location_new 255 (2 ^ 56 - 1) = Ret (2 ^ 64 - 1).
Proof. vm_compute. auto. Qed.

(** ** C38 *)

(** Along every history of list operations the heads keep standing for the sequences. *)
Theorem lists_are_sequences : forall n ops hs ls ll ll',
  length ls = n -> represents hs ls ll -> list_steps n ll ops ll' ->
  exists hs' ls', foldM run_op ops (hs, ls) = Ret (hs', ls') /\ represents hs' ls' ll'.
Proof. exact run_ops_ok. Qed.
Print Assumptions lists_are_sequences.

(** Every history starts somewhere: empty lists stand for empty sequences. *)
Theorem lists_start_empty : forall m n, Z.of_nat n <= nil_index ->
  represents (repeat head_default m) (repeat link_default n) (repeat [] m).
Proof. exact represents_empty. Qed.
Print Assumptions lists_start_empty.

Example lists_are_sequences_ex :
  let ops := [PushBack 0 1; PushFront 0 4; PushBack 1 2; PushBack 0 3; Remove 0 1; PushFront 1 1] in
  list_steps 5 [[]; []] ops [[4; 3]; [1; 2]]%nat /\
  exists ls, foldM run_op ops ([head_default; head_default], repeat link_default 5)
    = Ret ([{| h_head := 4; h_tail := 3 |}; {| h_head := 1; h_tail := 2 |}], ls).
Proof.
  split; [|eexists; vm_compute; reflexivity]. cbv zeta.
  apply steps_cons with [[1]; []]%nat; [apply (step_back 5 [[]; []] 0 1 []); [lia|cbn; intuition lia|reflexivity]|].
  apply steps_cons with [[4; 1]; []]%nat; [apply (step_front 5 [[1]; []]%nat 0 4 [1]%nat); [lia|cbn; intuition lia|reflexivity]|].
  apply steps_cons with [[4; 1]; [2]]%nat; [apply (step_back 5 [[4; 1]; []]%nat 1 2 []); [lia|cbn; intuition lia|reflexivity]|].
  apply steps_cons with [[4; 1; 3]; [2]]%nat; [apply (step_back 5 [[4; 1]; [2]]%nat 0 3 [4; 1]%nat); [lia|cbn; intuition lia|reflexivity]|].
  apply steps_cons with [[4; 3]; [2]]%nat; [apply (step_remove 5 [[4; 1; 3]; [2]]%nat 0 1 [4]%nat [3]%nat); reflexivity|].
  apply steps_cons with [[4; 3]; [1; 2]]%nat; [apply (step_front 5 [[4; 3]; [2]]%nat 1 1 [2]%nat); [lia|cbn; intuition lia|reflexivity]|].
  apply steps_nil.
Qed.

(** Adding a buffer that is on a list with another buffer panics. *)
Theorem lists_reject_linked : forall ls h h0 l x,
  threads ls h0 l -> In x l -> (2 <= length l)%nat -> Z.of_nat (length ls) <= nil_index ->
  list_push_front h ls (Z.of_nat x) = Panic /\ list_push_back h ls (Z.of_nat x) = Panic.
Proof. exact push_linked_panics. Qed.
Print Assumptions lists_reject_linked.

Example lists_reject_linked_ex :
  exists h ls, foldM run_op [PushBack 0 0; PushBack 0 1] ([head_default], repeat link_default 2) = Ret ([h], ls) /\
    threads ls h [0; 1]%nat /\ list_push_front head_default ls 1 = Panic.
Proof.
  do 2 eexists. split; [vm_compute; reflexivity|]. split; [|reflexivity].
  split; cbn; (split; [reflexivity|eexists; split; [reflexivity|]]);
    (split; [reflexivity|eexists; split; reflexivity]).
Qed.

(** A buffer alone on a list is not recognised as linked: it can be added to a second list, so that two lists share
    it. *)
Theorem lists_reject_linked_refuted : exists ls h h' ls',
  threads ls h [0]%nat /\ list_push_front head_default ls 0 = Ret (h', ls') /\
  threads ls' h [0]%nat /\ threads ls' h' [0]%nat.
Proof. exact push_single_accepted. Qed.
Print Assumptions lists_reject_linked_refuted.

(** ** C39 *)

(** With overflow checks no arguments give a pool. *)
Theorem pool_debug_never : forall map_anon buffer_size num_buffers r,
  pool_new Debug map_anon buffer_size num_buffers <> Ret (Ok r).
Proof. exact pool_debug. Qed.
Print Assumptions pool_debug_never.

Example pool_debug_never_ex : pool_new Debug (fun _ => true) 4096 3 = Panic.
Proof. reflexivity. Qed.

(** Without them every buffer is on the available list once, nothing is mapped, nothing is locked. *)
Theorem pool_release_fresh : forall map_anon buffer_size num_buffers,
  power_of_two buffer_size -> 0 < num_buffers < nil_index ->
  map_anon (buffer_size * num_buffers mod 2 ^ 64) = true ->
  exists m, pool_new Release map_anon buffer_size num_buffers = Ret (Ok (m, buffer_size * num_buffers mod 2 ^ 64)) /\
    represents [p_available m; p_in_use m; p_dirty m] (p_links m) [seq 0 (Z.to_nat num_buffers); []; []] /\
    length (p_links m) = Z.to_nat num_buffers /\ length (p_buffers m) = Z.to_nat num_buffers /\
    Forall (fun b => b_access b = None /\ b_dirty b = false /\ b_submitted b = false) (p_buffers m) /\
    p_mapped m = [] /\ p_locks m = [].
Proof. exact (fun f b n H => pool_fresh f b n (proj1 (pow2_true b) H)). Qed.
Print Assumptions pool_release_fresh.

Example pool_release_fresh_ex :
  exists m, pool_new Release (fun _ => true) 4096 3 = Ret (Ok (m, 12288)) /\
    p_links m = [{| prev := nil_index; next := 1 |}; {| prev := 0; next := 2 |}; {| prev := 1; next := nil_index |}] /\
    p_available m = {| h_head := 0; h_tail := 2 |}.
Proof. eexists. split; [vm_compute; reflexivity|]. split; reflexivity. Qed.

(** Other arguments are rejected in both profiles. *)
Theorem pool_bad_arguments : forall map_anon buffer_size num_buffers,
  0 <= buffer_size < 2 ^ 64 -> 0 <= num_buffers < 2 ^ 64 ->
  ~ power_of_two buffer_size \/ num_buffers = 0 \/ nil_index <= num_buffers ->
  forall p, pool_new p map_anon buffer_size num_buffers = Panic.
Proof. intros f b n Hb Hn H. rewrite pow2_false in H. exact (pool_release_args f b n Hb Hn H). Qed.
Print Assumptions pool_bad_arguments.

Example pool_bad_arguments_ex : ~ power_of_two 4095 /\ pool_new Release (fun _ => true) 4095 3 = Panic.
Proof. split; [apply pow2_false|]; reflexivity. Qed.

(** The memory need not have room for all buffers, as its size may wrap. *)
Theorem pool_memory_refuted : exists buffer_size num_buffers m bytes,
  pool_new Release (fun _ => true) buffer_size num_buffers = Ret (Ok (m, bytes)) /\ bytes < buffer_size * num_buffers /\
  (1 < length (p_buffers m))%nat.
Proof. exact pool_memory_wraps. Qed.
Print Assumptions pool_memory_refuted.

(** ** C43 *)

(** Header, file table and mirror: disjoint, aligned, and no larger than needed. *)
Theorem volume_regions : forall prm g,
  0 <= log_block_size prm -> 0 <= log_file_header_size prm -> 0 <= volume_size prm ->
  geometry_of Debug prm = Ret g ->
  let bs := 2 ^ log_block_size prm in
  let table := g_file_table_blocks g * bs in
  disjoint 0 bs (g_file_table_offset g) table /\ disjoint 0 bs (g_mirror_offset g) table /\
  disjoint (g_file_table_offset g) table (g_mirror_offset g) table /\
  (bs | g_file_table_offset g) /\ (bs | g_mirror_offset g) /\
  16 * 2 ^ log_file_header_size prm <= table < 16 * 2 ^ log_file_header_size prm + bs.
Proof. exact regions. Qed.
Print Assumptions volume_regions.

Example volume_regions_ex :
  exists g, geometry_of Debug {| volume_size := 2 ^ 30; log_block_size := 12; log_file_header_size := 10 |} = Ret g /\
    g_file_table_offset g = 4096 /\ g_mirror_offset g = 20480 /\ g_file_table_blocks g = 4 /\
    g_bitmap_offset g = 20484 /\ g_total_allocated g = 17.
Proof. eexists. split; [vm_compute; reflexivity|]. vm_compute. auto. Qed.

(** The allocation bitmap starts inside the mirror, overlaps it, and is rarely aligned. *)
Theorem volume_bitmap_misplaced : forall prm g,
  0 <= log_block_size prm -> 0 <= log_file_header_size prm -> 0 <= volume_size prm ->
  geometry_of Debug prm = Ret g ->
  let bs := 2 ^ log_block_size prm in
  let table := g_file_table_blocks g * bs in
  (g_mirror_offset g <= g_bitmap_offset g < g_mirror_offset g + table <-> 1 <= log_block_size prm) /\
  ((bs | g_bitmap_offset g) <-> (bs | g_file_table_blocks g)) /\
  (5 <= log_block_size prm -> log_file_header_size prm <= log_block_size prm -> ~ (bs | g_bitmap_offset g)) /\
  (1 <= log_block_size prm -> 0 < volume_size prm ->
   ~ disjoint (g_mirror_offset g) table (g_bitmap_offset g) (g_bitmap_blocks g * bs)).
Proof. exact bitmap_place. Qed.
Print Assumptions volume_bitmap_misplaced.

Example volume_bitmap_misplaced_ex :
  exists g, geometry_of Debug {| volume_size := 2 ^ 30; log_block_size := 12; log_file_header_size := 10 |} = Ret g /\
    g_mirror_offset g = 20480 /\ g_bitmap_offset g = 20484 /\ g_bitmap_blocks g = 8.
Proof. eexists. split; [vm_compute; reflexivity|]. vm_compute. auto. Qed.

(** The sizes: one bit per block, whole bytes, whole blocks, and the sum of all regions. *)
Theorem volume_sizes : forall prm g,
  0 <= log_block_size prm -> 0 <= log_file_header_size prm -> 0 <= volume_size prm ->
  geometry_of Debug prm = Ret g ->
  let bs := 2 ^ log_block_size prm in
  volume_size prm = g_bitmap_bits g * bs /\
  g_bitmap_bits g <= 8 * g_bitmap_size g < g_bitmap_bits g + 8 /\
  g_bitmap_size g <= g_bitmap_blocks g * bs < g_bitmap_size g + bs /\
  g_total_allocated g = 1 + 2 * g_file_table_blocks g + g_bitmap_blocks g.
Proof. exact sizes. Qed.
Print Assumptions volume_sizes.

Example volume_sizes_ex :
  exists g, geometry_of Debug {| volume_size := 5 * 4096; log_block_size := 12; log_file_header_size := 8 |} = Ret g /\
    g_bitmap_bits g = 5 /\ g_bitmap_size g = 1 /\ g_bitmap_blocks g = 1 /\ g_total_allocated g = 4.
Proof. eexists. split; [vm_compute; reflexivity|]. vm_compute. auto. Qed.

(** The computation succeeds for all reasonable parameters, and then in both profiles alike. *)
Theorem volume_geometry_exists : forall prm,
  0 <= log_block_size prm <= 32 -> 0 <= log_file_header_size prm <= 32 ->
  0 <= volume_size prm < 2 ^ 63 -> volume_size prm mod 2 ^ log_block_size prm = 0 ->
  exists g, geometry_of Debug prm = Ret g /\ geometry_of Release prm = Ret g.
Proof. exact geometry_both. Qed.
Print Assumptions volume_geometry_exists.

Example volume_geometry_exists_ex :
  (2 ^ 40) mod 2 ^ 13 = 0 /\
  geometry_of Debug {| volume_size := 4097; log_block_size := 12; log_file_header_size := 8 |} = Panic.
Proof. split; reflexivity. Qed.

(** A volume accepted by [new_with_defaults] need not have room for its own metadata. *)
Theorem volume_fits_refuted : exists size prm g,
  new_with_defaults size = Ret prm /\ geometry_of Debug prm = Ret g /\ g_bitmap_bits g < g_total_allocated g.
Proof. exact volume_too_small. Qed.
Print Assumptions volume_fits_refuted.

(** The default block size is twice the declared one. *)
Theorem volume_default_block_size : forall size prm, new_with_defaults size = Ret prm ->
  2 ^ log_block_size prm = 2 * 4096 /\ volume_size prm = size /\ (8192 | size) /\ 8192 <= size <= 2 ^ 45.
Proof. exact default_block_size. Qed.
Print Assumptions volume_default_block_size.

Example volume_default_block_size_ex :
  new_with_defaults 8192 = Ret {| volume_size := 8192; log_block_size := 13; log_file_header_size := 10 |} /\
  new_with_defaults 4096 = Panic.
Proof. split; reflexivity. Qed.

(** ** C44 *)

(** When the bitmap marks exactly the free blocks. *)
Theorem volume_bitmap_right : forall p prm g,
  4 <= log_block_size prm <= 32 -> 0 <= log_file_header_size prm -> 0 <= volume_size prm < 2 ^ 64 ->
  geometry_of Debug prm = Ret g -> g_total_allocated g < g_bitmap_bits g ->
  let per_block := 8 * 2 ^ log_block_size prm in
  exists bm, bitmap p g = Ret bm /\
    (forall n, Z.of_nat n < g_bitmap_bits g -> bit_of bm n <> None) /\
    (marks_free bm (g_total_allocated g) (g_bitmap_bits g) <->
     g_total_allocated g < 128 /\
     (g_bitmap_bits g mod per_block = 0 \/ g_bitmap_bits g mod per_block = per_block - 64)).
Proof. exact bitmap_right. Qed.
Print Assumptions volume_bitmap_right.

Example volume_bitmap_right_ex :
  let prm := {| volume_size := 2 ^ 16; log_block_size := 6; log_file_header_size := 6 |} in
  exists g bm, geometry_of Debug prm = Ret g /\ g_bitmap_bits g = 1024 /\ g_total_allocated g = 35 /\
    g_bitmap_bits g mod (8 * 2 ^ 6) = 0 /\ bitmap Debug g = Ret bm /\
    bit_of bm 34 = Some false /\ bit_of bm 35 = Some true /\ bit_of bm 1023 = Some true.
Proof.
  do 2 eexists. split; [vm_compute; reflexivity|]. split; [vm_compute; reflexivity|]. split; [vm_compute; reflexivity|].
  split; [vm_compute; reflexivity|]. split; [vm_compute; reflexivity|]. vm_compute. auto.
Qed.

(** Metadata of 128 blocks or more is marked free. *)
Theorem volume_bitmap_metadata_free : forall p prm g,
  4 <= log_block_size prm <= 32 -> 0 <= log_file_header_size prm -> 0 <= volume_size prm < 2 ^ 64 ->
  geometry_of Debug prm = Ret g -> 128 <= g_total_allocated g < g_bitmap_bits g ->
  exists bm, bitmap p g = Ret bm /\ forall n, (n < 128)%nat -> bit_of bm n = Some true.
Proof. exact bitmap_wrong_metadata. Qed.
Print Assumptions volume_bitmap_metadata_free.

Example volume_bitmap_metadata_free_ex :
  exists g bm, geometry_of Debug {| volume_size := 2 ^ 16; log_block_size := 6; log_file_header_size := 8 |} = Ret g /\
    g_total_allocated g = 131 /\ g_bitmap_bits g = 1024 /\ bitmap Debug g = Ret bm /\
    bit_of bm 0 = Some true /\ bit_of bm 127 = Some true /\ bit_of bm 130 = Some false.
Proof.
  do 2 eexists. split; [vm_compute; reflexivity|]. split; [vm_compute; reflexivity|]. split; [vm_compute; reflexivity|].
  split; [vm_compute; reflexivity|]. vm_compute. auto.
Qed.

(** Blocks behind the end of the volume are marked free. *)
Theorem volume_bitmap_end_free : forall p prm g,
  4 <= log_block_size prm <= 32 -> 0 <= log_file_header_size prm -> 0 <= volume_size prm < 2 ^ 64 ->
  geometry_of Debug prm = Ret g -> g_total_allocated g <= g_bitmap_bits g ->
  exists bm, bitmap p g = Ret bm /\
    forall n, g_bitmap_bits g <= 128 * (Z.of_nat n / 128) ->
      Z.of_nat n < 8 * 2 ^ log_block_size prm * g_bitmap_blocks g -> bit_of bm n = Some true.
Proof. exact bitmap_wrong_end. Qed.
Print Assumptions volume_bitmap_end_free.

Example volume_bitmap_end_free_ex :
  exists g bm, geometry_of Debug {| volume_size := 6400; log_block_size := 6; log_file_header_size := 6 |} = Ret g /\
    g_total_allocated g = 34 /\ g_bitmap_bits g = 100 /\ bitmap Debug g = Ret bm /\
    bit_of bm 27 = Some false /\ bit_of bm 99 = Some false /\ bit_of bm 128 = Some true /\ bit_of bm 511 = Some true.
Proof.
  do 2 eexists. split; [vm_compute; reflexivity|]. split; [vm_compute; reflexivity|]. split; [vm_compute; reflexivity|].
  split; [vm_compute; reflexivity|]. vm_compute. auto.
Qed.

(** ** C45 *)

(** The first 255 calls hand out 0, 1, 2, ... *)
Theorem volume_ids : forall p n, (n <= 255)%nat ->
  exists m, draw p n manager_new = Ret (m, map (fun i => Ok (Z.of_nat i)) (seq 0 n)) /\
    NoDup (map (fun i => @Ok Z unit (Z.of_nat i)) (seq 0 n)).
Proof. exact first_ids. Qed.
Print Assumptions volume_ids.

Example volume_ids_ex : exists m, draw Debug 3 manager_new = Ret (m, [Ok 0; Ok 1; Ok 2]).
Proof. eexists. reflexivity. Qed.

(** Further calls hand out nothing. *)
Theorem volume_ids_exhausted : forall k, (0 < k)%nat ->
  draw Debug (255 + k) manager_new = Panic /\
  exists m, draw Release (255 + k) manager_new
    = Ret (m, map (fun i => Ok (Z.of_nat i)) (seq 0 255) ++ repeat (Err tt) k).
Proof. exact ids_exhausted. Qed.
Print Assumptions volume_ids_exhausted.

Example volume_ids_exhausted_ex : draw Debug 256 manager_new = Panic.
Proof. reflexivity. Qed.

(** ** C51 *)

(** Creating a volume never succeeds: a page has a power of two of bytes, the header 48. *)
Theorem create_never_succeeds : forall p e rest m prm,
  length (e_uuid e) = 16%nat -> length (e_pad e) = 4%nat ->
  (forall l, e_access e l <> Undef) ->
  (forall l page, e_access e l = Ret page -> power_of_two (Z.of_nat (length page))) ->
  snd (create p e rest m prm) = Panic \/ snd (create p e rest m prm) = Ret (Err tt).
Proof.
  intros p e rest m prm Hu Hp Ha Hl. apply create_panics; try assumption. intros l page H. apply pow2_true. exact (Hl l page H).
Qed.
Print Assumptions create_never_succeeds.

Example create_never_succeeds_ex :
  let e := {| e_open := true; e_set_len := true; e_uuid := repeat Byte.x00 16; e_pad := repeat Byte.x00 4;
              e_access := fun _ => Ret (repeat Byte.x00 64) |} in
  let prm := {| volume_size := 2 ^ 16; log_block_size := 6; log_file_header_size := 6 |} in
  let r := create Release e (fun _ _ _ _ => Ret tt) (set_buffer_pool manager_new) prm in
  snd r = Panic /\ m_volumes (fst r) = [prm].
Proof. vm_compute. auto. Qed.

(** Writing a file header always panics: the header has 40 bytes. *)
Theorem init_file_header_never : forall p access seconds nanos pad rest index base i size extent prm,
  0 <= log_file_header_size prm -> length pad = 4%nat ->
  (forall l, access l <> Undef) ->
  init_file_header p access seconds nanos pad rest index base i size extent prm = Panic.
Proof. exact init_file_header_panics. Qed.
Print Assumptions init_file_header_never.

Example init_file_header_never_ex :
  init_file_header Release (fun _ => Ret (repeat Byte.x00 64)) 1 0 (repeat Byte.x00 4) (fun _ => Ret tt) 0 64 0 0 None
    {| volume_size := 2 ^ 16; log_block_size := 6; log_file_header_size := 6 |} = Panic.
Proof. vm_compute. reflexivity. Qed.

(** The mounted volumes stay numbered by their positions, whether the call succeeds or not. *)
Theorem create_keeps_numbering : forall p e rest m prm,
  0 <= m_next m < 2 ^ 8 ->
  Z.of_nat (length (m_volumes m)) = m_next m ->
  let m' := fst (create p e rest m prm) in
  Z.of_nat (length (m_volumes m')) = m_next m' /\ m_next m <= m_next m' < 2 ^ 8 /\
  exists l, m_volumes m' = m_volumes m ++ l.
Proof. exact create_manager. Qed.
Print Assumptions create_keeps_numbering.

Example create_keeps_numbering_ex :
  let e := {| e_open := true; e_set_len := true; e_uuid := repeat Byte.x00 16; e_pad := repeat Byte.x00 4;
              e_access := fun _ => Panic |} in
  let prm := {| volume_size := 2 ^ 16; log_block_size := 6; log_file_header_size := 6 |} in
  let m' := fst (create Release e (fun _ _ _ _ => Ret tt) manager_new prm) in
  m_next m' = 1 /\ length (m_volumes m') = 1%nat.
Proof. vm_compute. auto. Qed.

(** A volume is registered, and an identifier used up, exactly when the sizes can be computed, the file system agrees and
    an identifier is left; that the call then panics makes no difference. *)
Theorem create_registration : forall p e rest m prm,
  0 <= m_next m < 2 ^ 8 -> Z.of_nat (length (m_volumes m)) = m_next m ->
  let m' := fst (create p e rest m prm) in
  let proceeds := (exists g, geometry_of p prm = Ret g) /\ e_open e = true /\ e_set_len e = true /\ m_next m < 255 in
  (proceeds -> m_volumes m' = m_volumes m ++ [prm] /\ m_next m' = m_next m + 1) /\ (~ proceeds -> m' = m).
Proof. exact create_registers. Qed.
Print Assumptions create_registration.

Example create_registration_ex :
  let e := {| e_open := true; e_set_len := false; e_uuid := []; e_pad := []; e_access := fun _ => Panic |} in
  let prm := {| volume_size := 2 ^ 16; log_block_size := 6; log_file_header_size := 6 |} in
  create Release e (fun _ _ _ _ => Ret tt) manager_new prm = (manager_new, Ret (Err tt)).
Proof. vm_compute. reflexivity. Qed.

(** ** C64 *)

(** The header that is written to the first page, if that page had the size of the header; and without a buffer pool
    nothing is written. *)
Theorem create_first_page : forall p e rest m prm g page,
  0 <= m_next m < 255 -> Z.of_nat (length (m_volumes m)) = m_next m ->
  0 <= volume_size prm < 2 ^ 64 -> 0 <= log_block_size prm < 64 -> 0 <= log_file_header_size prm < 2 ^ 16 ->
  geometry_of p prm = Ret g -> e_open e = true -> e_set_len e = true ->
  length (e_uuid e) = 16%nat -> length (e_pad e) = 4%nat ->
  e_access e (m_next m * 2 ^ 56) = Ret page -> length page = 48%nat ->
  (exists header m', is_volume_header header (e_uuid e) (2 ^ log_block_size prm) prm /\
     snd (create p e rest (set_buffer_pool m) prm) = (_ <- rest m' (m_next m) g header ;; Ret (Ok (m_next m)))) /\
  (m_pool m = false -> snd (create p e rest m prm) = Panic).
Proof. exact create_header. Qed.
Print Assumptions create_first_page.

Example create_first_page_ex :
  let e := {| e_open := true; e_set_len := true; e_uuid := repeat Byte.x07 16; e_pad := repeat Byte.x00 4;
              e_access := fun _ => Ret (repeat Byte.x00 48) |} in
  let prm := {| volume_size := 2 ^ 16; log_block_size := 6; log_file_header_size := 6 |} in
  (exists g, geometry_of Debug prm = Ret g) /\
  snd (create Debug e (fun _ _ _ page => if Byte.eqb (nth 40 page Byte.x00) Byte.x06 then Ret tt else Undef)
         (set_buffer_pool manager_new) prm) = Ret (Ok 0) /\
  snd (create Debug e (fun _ _ _ _ => Ret tt) manager_new prm) = Panic.
Proof. split; [eexists; vm_compute; reflexivity|]. split; vm_compute; reflexivity. Qed.

(** The manager as it is made has no buffer pool: until [set_buffer_pool] is called, no creation gets beyond the
    registration. *)
Theorem create_without_a_pool : forall p e rest prm g,
  geometry_of p prm = Ret g -> e_open e = true -> e_set_len e = true ->
  snd (create p e rest manager_new prm) = Panic.
Proof. exact create_without_pool. Qed.
Print Assumptions create_without_a_pool.

Example create_without_a_pool_ex :
  exists g, geometry_of Debug {| volume_size := 2 ^ 16; log_block_size := 6; log_file_header_size := 6 |} = Ret g.
Proof. eexists. vm_compute. reflexivity. Qed.

(** The header of a file. *)
Theorem file_header_fields : forall t allocated used last pad, length pad = 4%nat -> 0 <= t < 2 ^ 64 ->
  0 <= allocated < 2 ^ 32 -> 0 <= used < 2 ^ 32 -> 0 <= last < 2 ^ 32 ->
  is_file_header (file_header_bytes t allocated used last pad) t t allocated used last.
Proof. exact file_header_ok. Qed.
Print Assumptions file_header_fields.

Example file_header_fields_ex : number_at (file_header_bytes 65541 3 2 1 (repeat Byte.x00 4)) 8 8 = 65541.
Proof. vm_compute. reflexivity. Qed.

(** Timestamps hold the seconds and the 16 leading bits of the nanoseconds, so they never run backwards. *)
Theorem timestamp_fields : forall seconds nanos t, 0 <= seconds < 2 ^ 48 -> 0 <= nanos < 2 ^ 30 ->
  file_timestamp seconds nanos = Ret t -> t = seconds * 2 ^ 16 + nanos / 2 ^ 14.
Proof. exact timestamp_value. Qed.
Print Assumptions timestamp_fields.

Theorem timestamp_monotone : forall s1 n1 t1 s2 n2 t2,
  0 <= s1 < 2 ^ 48 -> 0 <= s2 < 2 ^ 48 -> 0 <= n1 < 2 ^ 30 -> 0 <= n2 < 2 ^ 30 ->
  file_timestamp s1 n1 = Ret t1 -> file_timestamp s2 n2 = Ret t2 ->
  (s1 < s2 \/ s1 = s2 /\ n1 <= n2 -> t1 <= t2) /\ (s1 < s2 -> t1 < t2).
Proof. exact timestamp_order. Qed.
Print Assumptions timestamp_monotone.

Example timestamp_fields_ex : file_timestamp 5 (2 ^ 16 + 3) = Ret (5 * 65536 + 4) /\ file_timestamp 5 999948288 = Ret (5 * 65536 + 61032).
Proof. vm_compute. auto. Qed.

(** The assertion about the nanoseconds looks at two bits in the middle: it fails in three of four cases. *)
Theorem timestamp_panics : forall seconds nanos, 0 <= nanos ->
  (file_timestamp seconds nanos = Panic <-> (nanos / 2 ^ 14) mod 4 <> 0).
Proof. exact timestamp_defined. Qed.
Print Assumptions timestamp_panics.

Example timestamp_panics_ex : file_timestamp 5 20000 = Panic.
Proof. vm_compute. reflexivity. Qed.
