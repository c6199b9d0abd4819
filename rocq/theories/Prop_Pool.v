(** * Properties C40-C42 and C52 *)

From Verif Require Import Base StorageModel PoolModel PoolSpec PoolProofs PoolTheorems PoolDirty.
Local Open Scope nat_scope.

(** ** C40 *)

(** The count of a buffer is the number of handles on it that are not released; all of them have its lock. *)
Theorem pool_handle_count : forall p fetch zeros s, reachable p fetch zeros s -> forall i,
  match access_of (s_map s) i with
  | None => count i (s_handles s) = 0
  | Some (l, n) => n = Z.of_nat (count i (s_handles s)) /\ 0 < count i (s_handles s) /\
      forall h, In h (s_handles s) -> counted h = true -> h_index h = i -> h_lock h = l
  end.
Proof. intros p fetch zeros s R. exact (counts s (reachable_inv _ _ _ _ R)). Qed.
Print Assumptions pool_handle_count.

(** Two buffers in use have different locks. *)
Theorem pool_lock_separation : forall p fetch zeros s, reachable p fetch zeros s ->
  forall i j l c c', access_of (s_map s) i = Some (l, c) -> access_of (s_map s) j = Some (l, c') -> i = j.
Proof. intros p fetch zeros s R. exact (iv_locks s (reachable_inv _ _ _ _ R)). Qed.
Print Assumptions pool_lock_separation.

(** Two handles can have a page at the same time only for reading. *)
Theorem pool_exclusion : forall p fetch zeros s, reachable p fetch zeros s -> forall k1 k2 h1 h2,
  nth_error (s_handles s) k1 = Some h1 -> nth_error (s_handles s) k2 = Some h2 -> k1 <> k2 ->
  h_index h1 = h_index h2 -> holds_page h1 -> holds_page h2 ->
  h_phase h1 = Open /\ h_mode h1 = ReadOnly /\ h_phase h2 = Open /\ h_mode h2 = ReadOnly.
Proof. intros p fetch zeros s R k1 k2 h1 h2. exact (exclusive s k1 k2 h1 h2 (reachable_inv _ _ _ _ R)). Qed.
Print Assumptions pool_exclusion.

(** The page of an open handle changes by writes through that handle only. *)
Theorem pool_page_isolation : forall p fetch zeros s, reachable p fetch zeros s -> forall e s' r k h,
  exec p fetch zeros e s = Some (s', r) -> nth_error (s_handles s) k = Some h -> h_phase h = Open ->
  (forall pg, e <> EWrite k pg) -> nth_error (s_pages s') (h_index h) = nth_error (s_pages s) (h_index h).
Proof. intros p fetch zeros s R e s' r k h. exact (page_stable p fetch zeros e s s' r k h (reachable_inv _ _ _ _ R)). Qed.
Print Assumptions pool_page_isolation.

(** All handles of a location are on one buffer of the pool. *)
Theorem pool_location_buffer : forall p fetch zeros s, reachable p fetch zeros s -> forall h1 h2,
  In h1 (s_handles s) -> In h2 (s_handles s) -> h_loc h1 = h_loc h2 ->
  h_index h1 = h_index h2 /\ h_index h1 < length (s_pages s).
Proof. intros p fetch zeros s R h1 h2. exact (same_buffer s h1 h2 (reachable_inv _ _ _ _ R)). Qed.
Print Assumptions pool_location_buffer.

(** The release of an open handle never panics. *)
Theorem pool_release_succeeds : forall p fetch zeros s, reachable p fetch zeros s -> forall k h,
  nth_error (s_handles s) k = Some h -> h_phase h = Open ->
  exists s', exec p fetch zeros (ERelease k) s = Some (s', None).
Proof. intros p fetch zeros s R k h. exact (release_succeeds p fetch zeros s k h (reachable_inv _ _ _ _ R)). Qed.
Print Assumptions pool_release_succeeds.

(** Two buffers; two readers share a page, a writer waits for them; another location has another buffer and lock. *)
Example pool_handles_ex :
  exists m bytes s rs, pool_new Release (fun _ => true) 2 2 = Ret (Ok (m, bytes)) /\
    run Release (fun _ => Some [x01; x02]) [x00; x00]
      [EAccess ReadOnly 5; EFill 0; EAccess ReadOnly 5; EAcquire 1; EAccess ReadWrite 5; EAccess Initialize 6; EFill 3;
       EWrite 3 [x07; x08]] (start m [[x09; x09]; [x09; x09]]) = Some (s, rs) /\
    rs = repeat None 8 /\ access_of (s_map s) 1 = Some (0, 3%Z) /\ access_of (s_map s) 0 = Some (1, 1%Z) /\
    map h_phase (s_handles s) = [Open; Open; Waiting; Open] /\ map h_index (s_handles s) = [1; 1; 1; 0] /\
    s_pages s = [[x07; x08]; [x01; x02]] /\
    exec Release (fun _ => Some [x01; x02]) [x00; x00] (EAcquire 2) s = None.
Proof. eexists _, _, _, _. repeat (split; [vm_compute; reflexivity|]). vm_compute. reflexivity. Qed.

(** ** C41 *)

(** What a buffer without handles holds does not matter to anything that happens later, up to the first failure to fill
    it: whatever the schedule, the outcome is the same for another content once a handle on it is open. *)
Theorem pool_old_content_lost : forall p fetch zeros s, reachable p fetch zeros s -> forall i pg es s1 rs,
  i < length (s_pages s) -> access_of (s_map s) i = None -> run p fetch zeros es s = Some (s1, rs) ->
  p = Debug \/ (Z.of_nat (length (s_handles s1)) < 2 ^ 32)%Z ->
  exists s2, run p fetch zeros es (with_pages s (upd (s_pages s) i pg)) = Some (s2, rs) /\
    s_map s2 = s_map s1 /\ s_handles s2 = s_handles s1 /\
    (forall j, j <> i -> nth_error (s_pages s2) j = nth_error (s_pages s1) j) /\
    ((exists h, In h (s_handles s1) /\ h_index h = i /\ h_phase h = Open) ->
     (forall h, In h (s_handles s1) -> h_index h = i -> h_phase h <> Failed) -> s2 = s1).
Proof. intros p fetch zeros s R i pg es s1 rs. exact (old_content p fetch zeros s i pg es s1 rs (reachable_inv _ _ _ _ R)). Qed.
Print Assumptions pool_old_content_lost.

(** The next access to a location whose handles are all released sees zeros or what is fetched. *)
Theorem pool_next_access : forall p fetch zeros s, reachable p fetch zeros s -> forall md loc i s1,
  mapped_at (s_map s) loc = Some i -> access_of (s_map s) i = None ->
  exec p fetch zeros (EAccess md loc) s = Some (s1, None) ->
  exec p fetch zeros (EAcquire (length (s_handles s))) s1 = None /\
  exists s2 r, exec p fetch zeros (EFill (length (s_handles s))) s1 = Some (s2, r) /\
    match md, fetch loc with
    | Initialize, _ => r = None /\ nth_error (s_pages s2) i = Some zeros
    | _, Some pg => r = None /\ nth_error (s_pages s2) i = Some pg
    | _, None => r = Some FetchFailed /\ nth_error (s_pages s2) i = nth_error (s_pages s) i
    end.
Proof. intros p fetch zeros s R md loc i s1. exact (first_access p fetch zeros s md loc i s1 (reachable_inv _ _ _ _ R)). Qed.
Print Assumptions pool_next_access.

(** Written, released, and gone. *)
Example pool_lost_ex :
  exists m bytes s rs, pool_new Release (fun _ => true) 2 1 = Ret (Ok (m, bytes)) /\
    run Release (fun _ => None) [x00; x00]
      [EAccess Initialize 5; EFill 0; EWrite 0 [x07; x08]; ERelease 0; EDropGuard 0] (start m [[x09; x09]]) = Some (s, rs) /\
    s_pages s = [[x07; x08]] /\ mapped_at (s_map s) 5 = Some 0 /\ access_of (s_map s) 0 = None /\
    exists s1 rs1, run Release (fun _ => None) [x00; x00] [EAccess Initialize 5; EFill 1] s = Some (s1, rs1) /\
      s_pages s1 = [[x00; x00]].
Proof. eexists _, _, _, _. repeat (split; [vm_compute; reflexivity|]). eexists _, _. split; vm_compute; reflexivity. Qed.

(** After a failure the old content is seen again, although the location was never read from disk. *)
Theorem pool_old_content_refuted :
  exists m bytes s rs, pool_new Release (fun _ => true) 2 1 = Ret (Ok (m, bytes)) /\
    run Release (fun _ => None) [x00; x00]
      [EAccess Initialize 5; EFill 0; EWrite 0 [x07; x08]; ERelease 0; EDropGuard 0; EAccess ReadOnly 5; EFill 1;
       EAccess ReadOnly 5; EAcquire 2] (start m [[x09; x09]]) = Some (s, rs) /\
    rs = [None; None; None; None; None; None; Some FetchFailed; None; None] /\
    map h_phase (s_handles s) = [Closed; Failed; Open] /\ s_pages s = [[x07; x08]].
Proof. eexists _, _, _, _. repeat (split; [vm_compute; reflexivity|]). vm_compute. reflexivity. Qed.
Print Assumptions pool_old_content_refuted.

(** A handle for one location shows what was written through a handle for another one. *)
Theorem pool_alias_refuted :
  exists m bytes s rs h0 h1, pool_new Release (fun _ => true) 2 1 = Ret (Ok (m, bytes)) /\
    run Release (fun _ => None) [x00; x00]
      [EAccess Initialize 5; EFill 0; EWrite 0 [x07; x08]; EAccess ReadOnly 6; EAccess ReadOnly 6; ERelease 0;
       EDropGuard 0; EAcquire 1] (start m [[x09; x09]]) = Some (s, rs) /\
    rs = [None; None; None; Some BufferInUse; None; None; None; None] /\
    s_handles s = [h0; h1] /\ h_loc h0 = 5%Z /\ h_loc h1 = 6%Z /\ h_index h0 = h_index h1 /\ h_phase h1 = Open /\
    nth_error (s_pages s) (h_index h1) = Some [x07; x08].
Proof. eexists _, _, _, _, _, _. repeat (split; [vm_compute; reflexivity|]). vm_compute. reflexivity. Qed.
Print Assumptions pool_alias_refuted.

(** ** C42 *)

(** A release that still has its guard makes the access of another location panic. *)
Theorem pool_lock_race :
  exists m bytes s rs, pool_new Release (fun _ => true) 2 2 = Ret (Ok (m, bytes)) /\
    run Release (fun _ => None) [x00; x00]
      [EAccess Initialize 5; EFill 0; ERelease 0; EAccess Initialize 6] (start m [[x09; x09]; [x09; x09]]) = Some (s, rs) /\
    rs = [None; None; None; Some LockHeld] /\ map h_phase (s_handles s) = [Closing; Failed].
Proof. eexists _, _, _, _. repeat (split; [vm_compute; reflexivity|]). vm_compute. reflexivity. Qed.
Print Assumptions pool_lock_race.

(** It is the only way: a panic for a lock means that the lock taken from the free ones is held by such a release. *)
Theorem pool_lock_panic : forall p fetch zeros s, reachable p fetch zeros s -> forall e s',
  exec p fetch zeros e s = Some (s', Some LockHeld) ->
  exists md loc l rest h, e = EAccess md loc /\ p_locks (s_map s) = l :: rest /\
    In h (s_handles s) /\ h_lock h = l /\ h_phase h = Closing.
Proof. intros p fetch zeros s R e s'. exact (exec_panics p fetch zeros e s s' LockHeld (reachable_inv _ _ _ _ R)). Qed.
Print Assumptions pool_lock_panic.

(** The same schedule with the guard dropped in time. *)
Example pool_no_race_ex :
  exists m bytes s rs, pool_new Release (fun _ => true) 2 2 = Ret (Ok (m, bytes)) /\
    run Release (fun _ => None) [x00; x00]
      [EAccess Initialize 5; EFill 0; ERelease 0; EDropGuard 0; EAccess Initialize 6] (start m [[x09; x09]; [x09; x09]]) = Some (s, rs) /\
    rs = repeat None 5 /\ map h_phase (s_handles s) = [Closed; Filling] /\ map h_lock (s_handles s) = [0; 0].
Proof. eexists _, _, _, _. repeat (split; [vm_compute; reflexivity|]). vm_compute. reflexivity. Qed.

(** ** C52 *)

(** An access never waits for a buffer. *)
Theorem pool_never_waits : forall p fetch zeros s, reachable p fetch zeros s -> forall md loc,
  exists s' r, exec p fetch zeros (EAccess md loc) s = Some (s', r).
Proof. intros p fetch zeros s R md loc. exact (access_returns p fetch zeros s md loc (reachable_inv _ _ _ _ R)). Qed.
Print Assumptions pool_never_waits.

(** When all buffers are in use, the access of a new location panics, and the location stays mapped to one of them. *)
Theorem pool_exhausted : forall p fetch zeros s, reachable p fetch zeros s -> forall md loc,
  mapped_at (s_map s) loc = None ->
  (forall i, i < length (p_buffers (s_map s)) -> access_of (s_map s) i <> None) ->
  exists s' i, exec p fetch zeros (EAccess md loc) s = Some (s', Some BufferInUse) /\
    i < length (p_buffers (s_map s)) /\ mapped_at (s_map s') loc = Some i /\ s_handles s' = s_handles s.
Proof. intros p fetch zeros s R md loc. exact (exhausted p fetch zeros s md loc (reachable_inv _ _ _ _ R)). Qed.
Print Assumptions pool_exhausted.

(** All ways to panic. *)
Theorem pool_panics : forall p fetch zeros s, reachable p fetch zeros s -> forall e s' pn,
  exec p fetch zeros e s = Some (s', Some pn) ->
  match pn with
  | BufferInUse => exists md loc i a, e = EAccess md loc /\ mapped_at (s_map s) loc = None /\
      h_tail (p_available (s_map s)) = Z.of_nat i /\ access_of (s_map s) i = Some a /\
      mapped_at (s_map s') loc = Some i /\ s_handles s' = s_handles s
  | LockHeld => exists md loc l rest h, e = EAccess md loc /\ p_locks (s_map s) = l :: rest /\
      In h (s_handles s) /\ h_lock h = l /\ h_phase h = Closing
  | TooManyHandles => exists md loc i, p = Debug /\ e = EAccess md loc /\ mapped_at (s_map s) loc = Some i /\
      (2 ^ 32 <= Z.of_nat (count i (s_handles s)) + 1)%Z
  | FetchFailed => exists k h, e = EFill k /\ nth_error (s_handles s) k = Some h /\ h_mode h <> Initialize /\
      fetch (h_loc h) = None
  | ListBroken | NoAccess => False
  end.
Proof. intros p fetch zeros s R e s' pn. exact (exec_panics p fetch zeros e s s' pn (reachable_inv _ _ _ _ R)). Qed.
Print Assumptions pool_panics.

(** A handle that waits for its lock can get it, or a holder of the lock can go on. *)
Theorem pool_progress : forall p fetch zeros s, reachable p fetch zeros s -> forall k h,
  nth_error (s_handles s) k = Some h -> h_phase h = Waiting ->
  (exists s', exec p fetch zeros (EAcquire k) s = Some (s', None)) \/
  exists k2 h2, k2 <> k /\ nth_error (s_handles s) k2 = Some h2 /\ h_lock h2 = h_lock h /\
    ((h_phase h2 = Filling /\ exists s' r, exec p fetch zeros (EFill k2) s = Some (s', r)) \/
     (h_phase h2 = Open /\ exists s', exec p fetch zeros (ERelease k2) s = Some (s', None)) \/
     (h_phase h2 = Closing /\ exists s', exec p fetch zeros (EDropGuard k2) s = Some (s', None))).
Proof. intros p fetch zeros s R k h. exact (waiting_progress p fetch zeros s k h (reachable_inv _ _ _ _ R)). Qed.
Print Assumptions pool_progress.

(** One buffer in use, a second location; then a failed fetch and a handle that waits. *)
Example pool_panics_ex :
  exists m bytes s rs, pool_new Release (fun _ => true) 2 1 = Ret (Ok (m, bytes)) /\
    run Release (fun _ => None) [x00; x00] [EAccess ReadOnly 5; EAccess ReadWrite 6; EAccess ReadWrite 6; EFill 0]
      (start m [[x09; x09]]) = Some (s, rs) /\
    rs = [None; Some BufferInUse; None; Some FetchFailed] /\ map h_phase (s_handles s) = [Failed; Waiting] /\
    mapped_at (s_map s) 6 = Some 0 /\ mapped_at (s_map s) 7 = None /\ length (p_buffers (s_map s)) = 1 /\
    access_of (s_map s) 0 = Some (0, 2%Z) /\
    exists s', exec Release (fun _ => None) [x00; x00] (EAcquire 1) s = Some (s', None).
Proof. eexists _, _, _, _. repeat (split; [vm_compute; reflexivity|]). eexists. vm_compute. reflexivity. Qed.

(** ** C68 *)

(** A buffer is marked as written exactly if a handle that may write has been released on it; nothing is ever submitted. *)
Theorem pool_dirty_exact : forall p fetch zeros s, reachable p fetch zeros s -> forall i b,
  nth_error (p_buffers (s_map s)) i = Some b ->
  (b_dirty b = true <->
   exists h, In h (s_handles s) /\ h_index h = i /\ h_mode h <> ReadOnly /\ (h_phase h = Closing \/ h_phase h = Closed)) /\
  b_submitted b = false.
Proof. exact dirty_exact. Qed.
Print Assumptions pool_dirty_exact.

(** The mark is for ever. *)
Theorem pool_dirty_forever : forall p fetch zeros s, reachable p fetch zeros s -> forall es s1 rs i b b1,
  run p fetch zeros es s = Some (s1, rs) -> nth_error (p_buffers (s_map s)) i = Some b -> b_dirty b = true ->
  nth_error (p_buffers (s_map s1)) i = Some b1 -> b_dirty b1 = true.
Proof. exact dirty_forever. Qed.
Print Assumptions pool_dirty_forever.

(** The release of the last handle puts the buffer at the head of the list that its mark tells. *)
Theorem pool_released_to : forall p fetch zeros s, reachable p fetch zeros s -> forall k h l s1 b,
  nth_error (s_handles s) k = Some h -> access_of (s_map s) (h_index h) = Some (l, 1%Z) ->
  exec p fetch zeros (ERelease k) s = Some (s1, None) -> nth_error (p_buffers (s_map s1)) (h_index h) = Some b ->
  b_access b = None /\
  if b_dirty b
  then h_head (p_dirty (s_map s1)) = Z.of_nat (h_index h) /\ p_available (s_map s1) = p_available (s_map s)
  else h_head (p_available (s_map s1)) = Z.of_nat (h_index h) /\ p_dirty (s_map s1) = p_dirty (s_map s).
Proof. exact released_to. Qed.
Print Assumptions pool_released_to.

(** Two buffers, one written and one read; the reader of the written one releases later. *)
Example pool_dirty_ex :
  exists m bytes s rs, pool_new Release (fun _ => true) 2 2 = Ret (Ok (m, bytes)) /\
    run Release (fun _ => Some [x01; x02]) [x00; x00]
      [EAccess Initialize 5; EFill 0; EWrite 0 [x07; x08]; EAccess ReadOnly 5; ERelease 0; EDropGuard 0; EAcquire 1;
       EAccess ReadOnly 6; EFill 2] (start m [[x09; x09]; [x09; x09]]) = Some (s, rs) /\
    map b_dirty (p_buffers (s_map s)) = [false; true] /\ map h_index (s_handles s) = [1; 1; 0] /\
    access_of (s_map s) 1 = Some (0, 1%Z) /\ access_of (s_map s) 0 = Some (1, 1%Z) /\
    exists s1 s2, exec Release (fun _ => None) [x00; x00] (ERelease 1) s = Some (s1, None) /\
      exec Release (fun _ => None) [x00; x00] (ERelease 2) s = Some (s2, None) /\
      p_dirty (s_map s1) = {| h_head := 1; h_tail := 1 |} /\ h_head (p_available (s_map s2)) = 0%Z.
Proof.
  eexists _, _, _, _. repeat (split; [vm_compute; reflexivity|]). eexists _, _.
  repeat (split; [vm_compute; reflexivity|]). vm_compute. reflexivity.
Qed.

(** What a handle wrote that was not released is not marked, not even when all other handles are gone. *)
Theorem pool_dirty_refuted :
  exists m bytes s rs, pool_new Release (fun _ => true) 2 1 = Ret (Ok (m, bytes)) /\
    run Release (fun _ => Some [x01; x02]) [x00; x00]
      [EAccess ReadOnly 5; EFill 0; EAccess ReadWrite 5; ERelease 0; EDropGuard 0; EAcquire 1; EWrite 1 [x07; x08]; EAbandon 1]
      (start m [[x09; x09]]) = Some (s, rs) /\
    rs = [None; None; None; None; None; None; None; None] /\
    s_pages s = [[x07; x08]] /\ map b_dirty (p_buffers (s_map s)) = [false] /\ map h_phase (s_handles s) = [Closed; Lost].
Proof. eexists _, _, _, _. repeat (split; [vm_compute; reflexivity|]). vm_compute. reflexivity. Qed.
Print Assumptions pool_dirty_refuted.
