(** * Storage: locations, volume geometry, buffer lists, a new buffer pool

    src/storage/mod.rs. Integers are held in [Z]. *)

From Verif Require Import Base UtilModel.
Local Open Scope Z_scope.

(** Multiplication of [w]-bit unsigned integers under a profile. *)
Definition wmul (p : profile) (w a b : Z) : outcome Z :=
  if a * b <? 2 ^ w then Ret (a * b)
  else match p with Debug => Panic | Release => Ret ((a * b) mod 2 ^ w) end.

(** ** Locations *)

(** src/storage/mod.rs:234-237: the constants; the index is a [u8], the representation a [u64]. *)
Definition location_representation_bits : Z := 64.
Definition location_index_bits : Z := 8.
Definition location_shift_bits : Z := location_representation_bits - location_index_bits.
Definition location_offset_mask : Z := 2 ^ location_shift_bits - 1.

(** src/storage/mod.rs:240-245 [Location::new]. *)
Definition location_new (index offset : Z) : outcome Z :=
  let masked := Z.land offset location_offset_mask in
  check (masked =? offset) ;;
  Ret (Z.lor (Z.shiftl index location_shift_bits mod 2 ^ 64) masked).

(** src/storage/mod.rs:247-250 [Location::index]. *)
Definition location_index (l : Z) : Z := Z.shiftr l location_shift_bits mod 2 ^ 8.

(** src/storage/mod.rs:252-254 [Location::offset]. *)
Definition location_offset (l : Z) : Z := Z.land l location_offset_mask.

(** ** Volumes *)

(** src/storage/mod.rs:190-199 [VolumeParameters]. *)
Record params : Type := {
  volume_size : Z;
  log_block_size : Z;
  log_file_header_size : Z
}.

(** [u32::leading_zeros]. *)
Definition leading_zeros32 (v : Z) : Z := if v =? 0 then 32 else 31 - Z.log2 v.

(** src/storage/mod.rs:203: [LOG_BLOCK_SIZE], computed from [DEFAULT_VOLUME_BLOCK_SIZE] (line 40). *)
Definition default_log_block_size : Z := 32 - leading_zeros32 4096.

(** src/storage/mod.rs:202-215 [VolumeParameters::new_with_defaults]; 10 is line 121. *)
Definition new_with_defaults (volume_size : Z) : outcome params :=
  let block_size := 2 ^ default_log_block_size in
  check (volume_size mod block_size =? 0) && (1 <=? volume_size / block_size) ;;
  check (volume_size / block_size <=? (2 ^ 32 - 1) + 1) ;;
  Ret {| volume_size := volume_size; log_block_size := default_log_block_size; log_file_header_size := 10 |}.

(** src/storage/mod.rs:92 [FILE_TABLE_NUM_RESERVED]. *)
Definition file_table_num_reserved : Z := 16.

(** The sizes and offsets computed by [VolumeManager::create]. *)
Record geometry : Type := {
  g_block_size : Z;
  g_file_table_offset : Z;
  g_file_table_size : Z;
  g_file_table_blocks : Z;
  g_mirror_offset : Z;
  g_bitmap_offset : Z;
  g_bitmap_bits : Z;
  g_bitmap_size : Z;
  g_bitmap_blocks : Z;
  g_total_allocated : Z
}.

(** src/storage/mod.rs:397-416, the first part of [VolumeManager::create]. *)
Definition geometry_of (p : profile) (prm : params) : outcome geometry :=
  block_size <- wshl p 64 1 (log_block_size prm) ;;
  file_header_size <- wshl p 64 1 (log_file_header_size prm) ;;
  file_table_offset <- wshl p 64 1 (log_block_size prm) ;;
  file_table_size <- wmul p 64 file_header_size file_table_num_reserved ;;
  s <- wadd p 64 file_table_size block_size ;;
  s1 <- wsub p 64 s 1 ;;
  let file_table_blocks := s1 / block_size in
  table_bytes <- wmul p 64 file_table_blocks block_size ;;
  mirror_offset <- wadd p 64 file_table_offset table_bytes ;;
  bitmap_offset <- wadd p 64 mirror_offset file_table_blocks ;;
  check (volume_size prm mod block_size =? 0) ;;
  let bitmap_bits := volume_size prm / block_size in
  aligned <- align_w p 64 bitmap_bits 8 ;;
  let bitmap_size := Z.shiftr aligned 3 in
  bitmap_blocks <- calc_file_blocks p bitmap_size block_size ;;
  tables <- wmul p 64 file_table_blocks 2 ;;
  total1 <- wadd p 64 1 tables ;;
  total <- wadd p 64 total1 bitmap_blocks ;;
  Ret {| g_block_size := block_size; g_file_table_offset := file_table_offset; g_file_table_size := file_table_size;
         g_file_table_blocks := file_table_blocks; g_mirror_offset := mirror_offset;
         g_bitmap_offset := bitmap_offset; g_bitmap_bits := bitmap_bits; g_bitmap_size := bitmap_size;
         g_bitmap_blocks := bitmap_blocks; g_total_allocated := total |}.

(** src/storage/mod.rs:350-363 [VolumeManager]: the mounted volumes by their parameters, the next identifier, and
    whether the buffer pool can be upgraded. Paths, files and the count of mounted volumes (never changed) are
    dropped. *)
Record manager : Type := {
  m_volumes : list params;
  m_next : Z;
  m_pool : bool
}.

(** src/storage/mod.rs:366-373 [VolumeManager::new]: the pool passed is not used. *)
Definition manager_new : manager := {| m_volumes := []; m_next := 0; m_pool := false |}.

(** src/storage/mod.rs:376-378 [set_buffer_pool]. *)
Definition set_buffer_pool (m : manager) : manager :=
  {| m_volumes := m_volumes m; m_next := m_next m; m_pool := true |}.

(** src/storage/mod.rs:381-391 [next_volume]. *)
Definition next_volume (p : profile) (m : manager) : outcome (manager * result Z unit) :=
  next <- wadd p 8 (m_next m) 1 ;;
  Ret (if next <? m_next m then (m, Err tt)
       else ({| m_volumes := m_volumes m; m_next := next; m_pool := m_pool m |}, Ok (m_next m))).

(** src/storage/mod.rs:58-69 [VolumeHeader] as bytes ([repr(C)]; 4 bytes of padding of unknown value at the end). *)
Definition volume_header_bytes (uuid pad : list byte) (file_table_offset : Z) (prm : params) : list byte :=
  le_bytes 4 0xCA78 ++ le_bytes 4 0x0100 ++ uuid ++ le_bytes 8 (volume_size prm) ++ le_bytes 8 file_table_offset
  ++ le_bytes 2 (log_block_size prm) ++ le_bytes 2 (log_file_header_size prm) ++ pad.

(** What the environment answers during [create]: whether the file is created and resized, the identifier drawn, the
    padding bytes, and what [access_read_write] on a location gives (the page, unless it panics). *)
Record create_env : Type := {
  e_open : bool;
  e_set_len : bool;
  e_uuid : list byte;
  e_pad : list byte;
  e_access : Z -> outcome (list byte)
}.

(** src/storage/mod.rs:394-608 [VolumeManager::create]. The manager left behind is returned also when the call panics.
    [rest] stands for lines 477-605 (file table, mirror, bitmap), which work on the page left by the header block. *)
Definition create (p : profile) (e : create_env) (rest : manager -> Z -> geometry -> list byte -> outcome unit)
  (m : manager) (prm : params) : manager * outcome (result Z unit) :=
  match geometry_of p prm with
  | Panic => (m, Panic)
  | Undef => (m, Undef)
  | Ret g =>
      if negb (e_open e) then (m, Ret (Err tt))
      else if negb (e_set_len e) then (m, Ret (Err tt))
      else
        match next_volume p m with
        | Panic => (m, Panic)
        | Undef => (m, Undef)
        | Ret (m1, Err _) => (m1, Ret (Err tt))
        | Ret (m1, Ok index) =>
            if negb (Z.of_nat (length (m_volumes m1)) =? index) then (m1, Panic)
            else
              let m2 := {| m_volumes := m_volumes m1 ++ [prm]; m_next := m_next m1; m_pool := m_pool m1 |} in
              (m2,
               check m_pool m2 ;;
               location <- location_new index 0 ;;
               page <- e_access e location ;;
               check (48 <=? Z.of_nat (length page)) ;;
               page' <- copy_range page 0 (length page)
                          (volume_header_bytes (e_uuid e) (e_pad e) (g_file_table_offset g) prm) ;;
               _ <- rest m2 index g page' ;;
               Ret (Ok index))
        end
  end.

(** src/storage/mod.rs:97-118 [FileHeader] as bytes ([repr(C)]; 4 bytes of padding at the end). *)
Definition file_header_bytes (timestamp blocks_allocated blocks_used last_block_use : Z) (pad : list byte) : list byte :=
  le_bytes 4 1 ++ le_bytes 4 1 ++ le_bytes 8 timestamp ++ le_bytes 8 timestamp ++ le_bytes 4 blocks_allocated
  ++ le_bytes 4 blocks_used ++ le_bytes 4 last_block_use ++ pad.

(** src/storage/mod.rs:280-282 (in [init_file_header]): the time of day as a timestamp. [seconds] is a [u64], [nanos] a
    [u32]. *)
Definition file_timestamp (seconds nanos : Z) : outcome Z :=
  check (Z.land nanos 0xC000 =? 0) ;;
  Ret (Z.lor (Z.shiftl seconds 16 mod 2 ^ 64) (Z.shiftr nanos 14)).

(** src/storage/mod.rs:257-347 [init_file_header] up to the copy of the header; [rest] stands for lines 301-346 (the
    attributes). [seconds] and [nanos] are the time of day, [access] is [access_read_write]. *)
Definition init_file_header (p : profile) (access : Z -> outcome (list byte)) (seconds nanos : Z) (pad : list byte)
  (rest : list byte -> outcome unit) (index base_offset file_table_index initial_size : Z) (extent_blocks : option Z)
  (prm : params) : outcome unit :=
  block_size <- wshl p 64 1 (log_block_size prm) ;;
  file_header_size <- wshl p 64 1 (log_file_header_size prm) ;;
  start <- wmul p 64 file_table_index file_header_size ;;
  block_start <- wmul p 64 (start / block_size) block_size ;;
  location_offset <- wadd p 64 base_offset block_start ;;
  let offset := Z.to_nat (start mod block_size) in
  location <- location_new index location_offset ;;
  page <- access location ;;
  buffer <- index_range page offset (offset + Z.to_nat file_header_size) ;;
  s <- wadd p 64 initial_size block_size ;;
  s1 <- wsub p 64 s 1 ;;
  let blocks_used := (s1 / block_size) mod 2 ^ 32 in
  let last_block_use := (initial_size mod block_size) mod 2 ^ 32 in
  timestamp <- file_timestamp seconds nanos ;;
  buffer' <- copy_range buffer 0 (length buffer)
               (file_header_bytes timestamp (match extent_blocks with Some n => n | None => 0 end) blocks_used
                                  last_block_use pad) ;;
  rest buffer'.

(** *** The initial allocation bitmap *)

(** [ALL_ONES] *)
Definition all_ones : Z := 2 ^ 128 - 1.

(** src/storage/mod.rs:575-593: the word for the blocks from [bit_index]. *)
Definition bitmap_word (p : profile) (total bits bit_index : Z) : outcome Z :=
  limit <- wadd p 64 bit_index 128 ;;
  left <- (if (bit_index <=? total) && (total <? limit)
           then wshl p 128 all_ones (total - bit_index) else Ret all_ones) ;;
  right <- (if (bit_index <=? bits) && (bits <? limit)
            then wshr p 128 all_ones (bits - bit_index) else Ret all_ones) ;;
  Ret (Z.land left right).

(** src/storage/mod.rs:574-601: the words of one block. *)
Fixpoint bitmap_block (p : profile) (total bits : Z) (words : nat) (bit_index : Z) : outcome (list Z * Z) :=
  match words with
  | O => Ret ([], bit_index)
  | S n =>
      w <- bitmap_word p total bits bit_index ;;
      next <- wadd p 64 bit_index 128 ;;
      '(ws, last) <- bitmap_block p total bits n next ;;
      Ret (w :: ws, last)
  end.

(** src/storage/mod.rs:559-605: the blocks of the bitmap, as lists of 128-bit words. *)
Fixpoint bitmap_blocks (p : profile) (total bits : Z) (words blocks : nat) (bit_index : Z) : outcome (list (list Z)) :=
  match blocks with
  | O => Ret []
  | S n =>
      '(ws, next) <- bitmap_block p total bits words bit_index ;;
      rest <- bitmap_blocks p total bits words n next ;;
      Ret (ws :: rest)
  end.

Definition bitmap (p : profile) (g : geometry) : outcome (list (list Z)) :=
  bits_per_block <- wmul p 64 (g_block_size g) 8 ;;
  bitmap_blocks p (g_total_allocated g) (g_bitmap_bits g) (Z.to_nat (bits_per_block / 128))
                (Z.to_nat (g_bitmap_blocks g)) 0.

(** ** Buffer lists *)

(** src/storage/mod.rs:656 [NIL_BUFFER_INDEX]. *)
Definition nil_index : Z := 2 ^ 32 - 1.

(** src/storage/mod.rs:658-671 [BufferListLink]. The links of all buffers are kept in one list. *)
Record link : Type := { prev : Z; next : Z }.

(** src/storage/mod.rs:673-686 [BufferListHead]. *)
Record head : Type := { h_head : Z; h_tail : Z }.

Definition link_default : link := {| prev := nil_index; next := nil_index |}.
Definition head_default : head := {| h_head := nil_index; h_tail := nil_index |}.

(** [l[i]] and [l[i] = a] with bounds check. *)
Definition get {A : Type} (l : list A) (i : Z) : outcome A :=
  match nth_error l (Z.to_nat i) with
  | Some a => Ret a
  | None => Panic
  end.

Definition set {A : Type} (l : list A) (i : Z) (a : A) : outcome (list A) :=
  if (Z.to_nat i <? length l)%nat then Ret (firstn (Z.to_nat i) l ++ a :: skipn (S (Z.to_nat i)) l) else Panic.

Definition set_next (ls : list link) (i n : Z) : outcome (list link) :=
  k <- get ls i ;; set ls i {| prev := prev k; next := n |}.

Definition set_prev (ls : list link) (i n : Z) : outcome (list link) :=
  k <- get ls i ;; set ls i {| prev := n; next := next k |}.

(** src/storage/mod.rs:1155-1169 [list_push_front]. *)
Definition list_push_front (h : head) (ls : list link) (i : Z) : outcome (head * list link) :=
  k <- get ls i ;;
  check (next k =? nil_index) ;;
  check (prev k =? nil_index) ;;
  if negb (h_head h =? nil_index) then
    check negb (h_tail h =? nil_index) ;;
    ls1 <- set_next ls i (h_head h) ;;
    ls2 <- set_prev ls1 (h_head h) i ;;
    Ret ({| h_head := i; h_tail := h_tail h |}, ls2)
  else
    check (h_tail h =? nil_index) ;;
    Ret ({| h_head := i; h_tail := i |}, ls).

(** src/storage/mod.rs:1171-1185 [list_push_back]. *)
Definition list_push_back (h : head) (ls : list link) (i : Z) : outcome (head * list link) :=
  k <- get ls i ;;
  check (next k =? nil_index) ;;
  check (prev k =? nil_index) ;;
  if negb (h_tail h =? nil_index) then
    check negb (h_head h =? nil_index) ;;
    ls1 <- set_prev ls i (h_tail h) ;;
    ls2 <- set_next ls1 (h_tail h) i ;;
    Ret ({| h_head := h_head h; h_tail := i |}, ls2)
  else
    check (h_tail h =? nil_index) ;;
    Ret ({| h_head := i; h_tail := i |}, ls).

(** src/storage/mod.rs:1187-1205 [list_remove]. *)
Definition list_remove (h : head) (ls : list link) (i : Z) : outcome (head * list link) :=
  k <- get ls i ;;
  '(h1, ls1) <- (if negb (next k =? nil_index)
                 then ls1 <- set_prev ls (next k) (prev k) ;; Ret (h, ls1)
                 else Ret ({| h_head := h_head h; h_tail := prev k |}, ls)) ;;
  '(h2, ls2) <- (if negb (prev k =? nil_index)
                 then ls2 <- set_next ls1 (prev k) (next k) ;; Ret (h1, ls2)
                 else Ret ({| h_head := next k; h_tail := h_tail h1 |}, ls1)) ;;
  ls3 <- set_next ls2 i nil_index ;;
  ls4 <- set_prev ls3 i nil_index ;;
  Ret (h2, ls4).

(** ** A new buffer pool *)

(** src/storage/mod.rs:700-740 [Buffer] without its link. The fields [location], [mapped] and [pinned] are never read or
    changed after construction and are dropped. [access] is the identity of the lock and the number of handles. *)
Record buffer : Type := {
  b_access : option (nat * Z);
  b_dirty : bool;
  b_submitted : bool
}.

Definition buffer_default : buffer := {| b_access := None; b_dirty := false; b_submitted := false |}.

(** src/storage/mod.rs:743-763 [BufferPoolMapping]: the links and the other fields of the buffers are separate lists,
    locks are numbered. *)
Record mapping : Type := {
  p_links : list link;
  p_buffers : list buffer;
  p_mapped : list (Z * Z);
  p_locks : list nat;
  p_in_use : head;
  p_dirty : head;
  p_available : head
}.

(** src/storage/mod.rs:817-820: chaining the buffers. *)
Definition chain (p : profile) (ls : list link) (i : nat) : outcome (list link) :=
  before <- wsub p 64 (Z.of_nat i) 1 ;;
  ls1 <- set_prev ls (Z.of_nat i) (before mod 2 ^ 32) ;;
  after <- wadd p 64 (Z.of_nat i) 1 ;;
  set_next ls1 (Z.of_nat i) (after mod 2 ^ 32).

(** src/storage/mod.rs:802-846 [BufferPool::new]. [map_anon] tells whether a mapping of the given size can be had. The
    result is the mapping and the size of the memory. *)
Definition pool_new (p : profile) (map_anon : Z -> bool) (buffer_size num_buffers : Z)
  : outcome (result (mapping * Z) unit) :=
  check negb (buffer_size =? 0) ;;
  check negb (num_buffers =? 0) ;;
  check is_pow2 buffer_size ;;
  check (num_buffers <? nil_index) ;;
  bytes <- wmul p 64 buffer_size num_buffers ;;
  if negb (map_anon bytes) then Ret (Err tt)
  else
    let n := Z.to_nat num_buffers in
    ls1 <- foldM (chain p) (seq 0 n) (repeat link_default n) ;;
    ls2 <- set_prev ls1 0 nil_index ;;
    ls3 <- set_next ls2 (num_buffers - 1) nil_index ;;
    Ret (Ok ({| p_links := ls3; p_buffers := repeat buffer_default n; p_mapped := []; p_locks := [];
                p_in_use := head_default; p_dirty := head_default;
                p_available := {| h_head := 0; h_tail := num_buffers - 1 |} |}, bytes)).
