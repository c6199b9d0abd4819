(** * Model of storage/mod.rs: the file table, its mirror and the bitmap of a new volume *)

From Coq Require Import Strings.String.
From Verif Require Import Base UtilModel StorageModel.
From Verif Require StrModel.
Local Open Scope Z_scope.

(** src/storage/mod.rs:157-165 [Extent]. *)
Record extent : Type := { x_block : Z; x_blocks : Z }.

(** The arguments of one call of [init_file_header] in [create]: file table index, name, size and extent. *)
Record file_plan : Type := {
  f_index : Z;
  f_name : list byte;
  f_size : Z;
  f_extent : option extent
}.

(** src/storage/mod.rs:483-533: [x as u32]. *)
Definition as_u32 (x : Z) : Z := x mod 2 ^ 32.

(** src/storage/mod.rs:534: the name of a reserved file. *)
Definition reserved_name (i : Z) : list byte := list_byte_of_string "$reserved_" ++ map z2b (StrModel.show_int i).

(** src/storage/mod.rs:478-541 (in [create]), with the indices and names of lines 71-91: the reserved files. *)
Definition reserved_files (g : geometry) : list file_plan :=
  [ {| f_index := 0; f_name := list_byte_of_string "$file_table_0"; f_size := g_file_table_size g;
       f_extent := Some {| x_block := as_u32 (g_file_table_offset g / g_block_size g);
                           x_blocks := as_u32 (g_file_table_blocks g) |} |};
    {| f_index := 1; f_name := list_byte_of_string "$file_table_1"; f_size := g_file_table_size g;
       f_extent := Some {| x_block := as_u32 (g_mirror_offset g / g_block_size g);
                           x_blocks := as_u32 (g_file_table_blocks g) |} |};
    {| f_index := 2; f_name := list_byte_of_string "$allocation_bitmap"; f_size := g_bitmap_size g;
       f_extent := Some {| x_block := as_u32 (g_bitmap_offset g / g_block_size g);
                           x_blocks := as_u32 (g_bitmap_blocks g) |} |};
    {| f_index := 3; f_name := list_byte_of_string "$journal"; f_size := 0; f_extent := None |};
    {| f_index := 4; f_name := list_byte_of_string "$volume_header"; f_size := g_block_size g;
       f_extent := Some {| x_block := 0; x_blocks := 1 |} |} ]
  ++ map (fun i => {| f_index := Z.of_nat i; f_name := reserved_name (Z.of_nat i); f_size := 0; f_extent := None |})
         (seq 5 (Z.to_nat file_table_num_reserved - 5)).

(** [*pointer = value] through a raw pointer into the buffer: outside of it the behaviour is undefined. *)
Definition poke (buffer : list byte) (at_ : Z) (new : list byte) : outcome (list byte) :=
  if at_ + Z.of_nat (length new) <=? Z.of_nat (length buffer) then Ret (write buffer (Z.to_nat at_) new) else Undef.

(** src/storage/mod.rs:301-344 (in [init_file_header]): the attributes after the 40 bytes of the header. *)
Definition attributes (p : profile) (buffer name : list byte) (size : Z) (ext : option extent) : outcome (list byte) :=
  let len := Z.of_nat (length buffer) in
  offset <- align_w p 64 40 2 ;;
  check (offset <? len) ;;
  b1 <- poke buffer offset (le_bytes 2 1) ;;
  check (Z.of_nat (length name) <=? 255) ;;
  b2 <- poke b1 (offset + 2) (le_bytes 1 (Z.of_nat (length name))) ;;
  b3 <- copy_range b2 (Z.to_nat (offset + 3)) (length b2) name ;;
  offset <- align_w p 64 (offset + 3 + Z.of_nat (length name)) 2 ;;
  check (offset <? len) ;;
  '(b4, offset) <- match ext with
                   | Some x =>
                       c1 <- poke b3 offset (le_bytes 2 0x10) ;;
                       c2 <- poke c1 (offset + 2) (le_bytes 2 1) ;;
                       extent_offset <- align_w p 64 (offset + 4) 4 ;;
                       c3 <- poke c2 (offset + extent_offset) (le_bytes 4 (x_block x) ++ le_bytes 4 (x_blocks x)) ;;
                       Ret (c3, extent_offset + 8)
                   | None => check (size =? 0) ;; Ret (b3, offset)
                   end ;;
  offset <- align_w p 64 offset 2 ;;
  check (offset <? len) ;;
  poke b4 offset (le_bytes 2 0).

(** The pages of the volume by their locations: what the buffer pool shows. *)
Definition pages : Type := Z -> list byte.

Definition put_page (st : pages) (location : Z) (page : list byte) : pages :=
  fun l => if l =? location then page else st l.

(** src/storage/mod.rs:547-559 (in [create]): one block of the file table copied to the mirror. *)
Definition mirror_block (p : profile) (index : Z) (g : geometry) (st : pages) (block : nat) : outcome pages :=
  a <- wmul p 64 (Z.of_nat block) (g_block_size g) ;;
  from <- wadd p 64 (g_file_table_offset g) a ;;
  source <- location_new index from ;;
  b <- wmul p 64 (Z.of_nat block) (g_block_size g) ;;
  to <- wadd p 64 (g_mirror_offset g) b ;;
  dest <- location_new index to ;;
  page <- copy_range (st dest) 0 (length (st dest)) (st source) ;;
  Ret (put_page st dest page).

(** src/storage/mod.rs:545-560. *)
Definition mirror_table (p : profile) (index : Z) (g : geometry) (st : pages) : outcome pages :=
  foldM (mirror_block p index g) (seq 0 (Z.to_nat (g_file_table_blocks g))) st.

(** src/storage/mod.rs:576-602: one word of the bitmap, written through a pointer. *)
Definition store_word (p : profile) (g : geometry) (s : list byte * Z) (word : nat) : outcome (list byte * Z) :=
  let '(page, bit_index) := s in
  mask <- bitmap_word p (g_total_allocated g) (g_bitmap_bits g) bit_index ;;
  page' <- poke page (Z.of_nat word * 16) (le_bytes 16 mask) ;;
  next <- wadd p 64 bit_index 128 ;;
  Ret (page', next).

(** src/storage/mod.rs:569-604: one block of the bitmap. *)
Definition store_block (p : profile) (index : Z) (g : geometry) (words : nat) (s : pages * Z) (block : nat)
  : outcome (pages * Z) :=
  let '(st, bit_index) := s in
  a <- wmul p 64 (Z.of_nat block) (g_block_size g) ;;
  at_ <- wadd p 64 (g_bitmap_offset g) a ;;
  location <- location_new index at_ ;;
  '(page, next) <- foldM (store_word p g) (seq 0 words) (st location, bit_index) ;;
  Ret (put_page st location page, next).

(** src/storage/mod.rs:562-605. *)
Definition store_bitmap (p : profile) (index : Z) (g : geometry) (st : pages) : outcome pages :=
  bits_per_block <- wmul p 64 (g_block_size g) 8 ;;
  '(st', _) <- foldM (store_block p index g (Z.to_nat (bits_per_block / 128)))
                     (seq 0 (Z.to_nat (g_bitmap_blocks g))) (st, 0) ;;
  Ret st'.

(** src/storage/mod.rs:257-347 [init_file_header], whole, for one planned file. *)
Definition init_file (p : profile) (access : Z -> outcome (list byte)) (seconds nanos : Z) (pad : list byte)
  (index : Z) (g : geometry) (prm : params) (f : file_plan) : outcome unit :=
  init_file_header p access seconds nanos pad
    (fun buffer => _ <- attributes p buffer (f_name f) (f_size f) (f_extent f) ;; Ret tt)
    index (g_file_table_offset g) (f_index f) (f_size f) (option_map x_blocks (f_extent f)) prm.

(** src/storage/mod.rs:477-605: what [create] does after the header block. [st] are the pages the file headers leave. *)
Definition create_rest (p : profile) (access : Z -> outcome (list byte)) (seconds nanos : Z) (pad : list byte)
  (st : pages) (prm : params) (m : manager) (index : Z) (g : geometry) (page : list byte) : outcome unit :=
  _ <- foldM (fun _ f => init_file p access seconds nanos pad index g prm f) (reserved_files g) tt ;;
  st1 <- mirror_table p index g st ;;
  _ <- store_bitmap p index g st1 ;;
  Ret tt.

(** src/storage/mod.rs:394-608 [create], whole. *)
Definition create_whole (p : profile) (e : create_env) (seconds nanos : Z) (pad : list byte) (st : pages)
  (m : manager) (prm : params) : manager * outcome (result Z unit) :=
  create p e (create_rest p (e_access e) seconds nanos pad st prm) m prm.
