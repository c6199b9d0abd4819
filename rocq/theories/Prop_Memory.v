(** * Property C76 *)

From Verif Require Import Base PowerSpec PowerFacts StorageModel PoolModel PoolSpec PoolProofs MemoryModel MemoryProofs.
Local Open Scope nat_scope.

(** As long as the size of the memory did not wrap, no use of a buffer leaves the memory, and what a task finds in its
    buffer after any schedule is the page that [PoolModel] has for the buffer. *)
Theorem pool_memory : forall map_anon bs n m bytes, pool_new Release map_anon bs n = Ret (Ok (m, bytes)) ->
  (bs * n < 2 ^ 64)%Z -> forall p fetch zeros pages es s rs,
  (forall loc pg, fetch loc = Some pg -> Z.of_nat (length pg) = bs) -> Z.of_nat (length zeros) = bs ->
  Forall (fun pg => Z.of_nat (length pg) = bs) pages -> length pages = length (p_buffers m) ->
  run p fetch zeros es (start m pages) = Some (s, rs) ->
  (p = Debug \/ (Z.of_nat (length (s_handles s)) < 2 ^ 32)%Z) ->
  exists memory, run_memory p fetch zeros bs es (start m pages) (concat pages) = Some (Ret memory) /\
    Z.of_nat (length memory) = bytes /\
    forall i, (Z.of_nat i < n)%Z -> exists pg, nth_error (s_pages s) i = Some pg /\ readable_slice p bs memory i = Ret pg.
Proof. exact pool_memory_lemma. Qed.
Print Assumptions pool_memory.

Example pool_memory_ex :
  exists m bytes s rs, pool_new Release (fun _ => true) 2 2 = Ret (Ok (m, bytes)) /\
    run Release (fun _ => Some [x01; x02]) [x00; x00]
      [EAccess ReadOnly 5; EFill 0; EAccess Initialize 6; EFill 1; EWrite 1 [x07; x08]]
      (start m [[x09; x09]; [x09; x09]]) = Some (s, rs) /\
    run_memory Release (fun _ => Some [x01; x02]) [x00; x00] 2
      [EAccess ReadOnly 5; EFill 0; EAccess Initialize 6; EFill 1; EWrite 1 [x07; x08]]
      (start m [[x09; x09]; [x09; x09]]) [x09; x09; x09; x09] = Some (Ret [x07; x08; x01; x02]).
Proof. eexists _, _, _, _. repeat (split; [vm_compute; reflexivity|]). vm_compute. reflexivity. Qed.

(** The buffers are in the memory and apart from one another exactly if its size did not wrap. *)
Theorem slices_apart_iff : forall bs n, power_of_two bs -> (bs < 2 ^ 64)%Z -> (0 < n)%Z ->
  (forall i j, (0 <= i < n)%Z -> (0 <= j < n)%Z -> i <> j ->
     exists a c, slice_start Release bs ((bs * n) mod 2 ^ 64) i = Ret a /\
       slice_start Release bs ((bs * n) mod 2 ^ 64) j = Ret c /\ (a + bs <= c \/ c + bs <= a)%Z) /\
  (exists a, slice_start Release bs ((bs * n) mod 2 ^ 64) 0 = Ret a)
  <-> (bs * n < 2 ^ 64)%Z.
Proof. exact (fun bs n H => slices_iff bs n (proj1 (pow2_true bs) H)). Qed.
Print Assumptions slices_apart_iff.

Example slices_apart_iff_ex : power_of_two 4096 /\ slice_start Release 4096 12288 2 = Ret 8192%Z.
Proof. split; [apply pow2_true|]; reflexivity. Qed.

(** Otherwise two buffers can be the same part of the memory and others outside of it, with a mapping of 8 GB. *)
Theorem slices_apart_refuted : exists bs n m bytes,
  pool_new Release (fun size => size <? 2 ^ 40)%Z bs n = Ret (Ok (m, bytes)) /\
  (exists i j a, (0 <= i < n)%Z /\ (0 <= j < n)%Z /\ i <> j /\
     slice_start Release bs bytes i = Ret a /\ slice_start Release bs bytes j = Ret a) /\
  (exists i, (0 <= i < n)%Z /\ slice_start Release bs bytes i = Undef).
Proof. exact wrapped_memory. Qed.
Print Assumptions slices_apart_refuted.

(** The slices live as long as the pool, not as the handle (lines 1222, 1259 and 1264): one that is kept after the
    release shows what others write, and one for writing writes to their pages. Here handle 0 is closed, handle 1 is
    open for writing, and the page is the one that the slice of handle 0 points to. *)
Theorem kept_slice_refuted :
  exists m bytes s1 rs1 h s2 rs2 h', pool_new Release (fun _ => true) 2 1 = Ret (Ok (m, bytes)) /\
    run Release (fun _ => Some [x01; x02]) [x00; x00] [EAccess ReadOnly 5; EFill 0] (start m [[x09; x09]]) = Some (s1, rs1) /\
    nth_error (s_handles s1) 0 = Some h /\ h_phase h = Open /\ nth_error (s_pages s1) (h_index h) = Some [x01; x02] /\
    run Release (fun _ => Some [x01; x02]) [x00; x00]
      [ERelease 0; EDropGuard 0; EAccess ReadWrite 5; EFill 1; EWrite 1 [x07; x08]] s1 = Some (s2, rs2) /\
    nth_error (s_handles s2) 1 = Some h' /\ h_phase h' = Open /\ h_mode h' = ReadWrite /\
    nth_error (s_pages s2) (h_index h) = Some [x07; x08].
Proof. eexists _, _, _, _, _, _, _, _. repeat (split; [vm_compute; reflexivity|]). vm_compute. reflexivity. Qed.
Print Assumptions kept_slice_refuted.
