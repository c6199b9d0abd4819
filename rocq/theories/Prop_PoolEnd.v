(** * Properties C81 and C41 *)

From Verif Require Import Base StorageModel PoolModel PoolSpec PoolProofs PoolTheorems PoolDrain.
Local Open Scope nat_scope.

(** Without new calls and writes there are at most three steps for each handle under way, whatever the schedule. *)
Theorem pool_winds_down : forall p fetch zeros s, reachable p fetch zeros s -> forall es s' rs,
  Forall winds_down es -> run p fetch zeros es s = Some (s', rs) ->
  length es <= 3 * length (filter (fun h => match h_phase h with Closed | Lost | Failed => false | _ => true end) (s_handles s)).
Proof.
  intros p fetch zeros s R es s' rs Q E. pose proof (total_bound (s_handles s) _ eq_refl).
  pose proof (run_down p fetch zeros es s s' rs (reachable_inv _ _ _ _ R) (reachable_few _ _ _ _ R) Q E). lia.
Qed.
Print Assumptions pool_winds_down.

(** When nothing can go on, every handle is finished: there is no deadlock. *)
Theorem pool_no_deadlock : forall p fetch zeros s, reachable p fetch zeros s ->
  (forall e, goes_on e -> exec p fetch zeros e s = None) -> Forall finished (s_handles s).
Proof.
  intros p fetch zeros s R H. apply total_zero. destruct (Nat.eq_dec (total (s_handles s)) 0) as [E|E]; [exact E|exfalso].
  destruct (goes p fetch zeros s (reachable_inv _ _ _ _ R) E) as (e & s' & r & G & X & _). rewrite (H e G) in X. discriminate.
Qed.
Print Assumptions pool_no_deadlock.

(** From every state all handles can be brought to their end, without a panic other than of a fetch. *)
Theorem pool_drains : forall p fetch zeros s, reachable p fetch zeros s ->
  exists es s' rs, Forall goes_on es /\ run p fetch zeros es s = Some (s', rs) /\ Forall finished (s_handles s') /\
    length (s_handles s') = length (s_handles s) /\ Forall (fun r => r = None \/ r = Some FetchFailed) rs.
Proof.
  intros p fetch zeros s R. exact (drain p fetch zeros _ s (reachable_inv _ _ _ _ R) (reachable_few _ _ _ _ R) (le_n _)).
Qed.
Print Assumptions pool_drains.

(** When all handles are closed, every access succeeds. *)
Theorem pool_idle_access : forall p fetch zeros s, reachable p fetch zeros s ->
  Forall (fun h => h_phase h = Closed) (s_handles s) ->
  forall md loc, exists s', exec p fetch zeros (EAccess md loc) s = Some (s', None).
Proof. intros p fetch zeros s R F md loc. exact (idle_access p fetch zeros s md loc R F). Qed.
Print Assumptions pool_idle_access.

(** A handle that was dropped without release, or whose page was not filled, keeps its buffer in use for ever. *)
Theorem pool_pinned : forall p fetch zeros s, reachable p fetch zeros s -> forall h es s' rs,
  In h (s_handles s) -> h_phase h = Lost \/ h_phase h = Failed ->
  run p fetch zeros es s = Some (s', rs) -> p = Debug \/ (Z.of_nat (length (s_handles s')) < 2 ^ 32)%Z ->
  access_of (s_map s') (h_index h) <> None.
Proof.
  intros p fetch zeros s R h es s' rs H P E F.
  exact (pinned p fetch zeros s (h_index h) es s' rs R (ex_intro _ h (conj H (conj eq_refl P))) E F).
Qed.
Print Assumptions pool_pinned.

(** A reader, a writer that waits for it and a call that has not read its page yet; and how they end. *)
Example pool_end_ex :
  exists m bytes s rs s1 rs1, pool_new Release (fun _ => true) 2 2 = Ret (Ok (m, bytes)) /\
    run Release (fun _ => Some [x01; x02]) [x00; x00]
      [EAccess ReadOnly 5; EFill 0; EAccess ReadWrite 5; EAccess ReadOnly 6] (start m [[x09; x09]; [x09; x09]]) = Some (s, rs) /\
    map h_phase (s_handles s) = [Open; Waiting; Filling] /\
    run Release (fun _ => Some [x01; x02]) [x00; x00]
      [EFill 2; ERelease 0; EDropGuard 0; EAcquire 1; ERelease 1; EDropGuard 1; ERelease 2; EDropGuard 2] s = Some (s1, rs1) /\
    map h_phase (s_handles s1) = [Closed; Closed; Closed] /\ rs1 = repeat None 8.
Proof. eexists _, _, _, _, _, _. repeat (split; [vm_compute; reflexivity|]). vm_compute. reflexivity. Qed.

(** A cancelled call: one buffer of two is lost. *)
Example pool_pinned_ex :
  exists m bytes s rs h, pool_new Release (fun _ => true) 2 2 = Ret (Ok (m, bytes)) /\
    run Release (fun _ => Some [x01; x02]) [x00; x00] [EAccess ReadOnly 5; EAbandon 0] (start m [[x09; x09]; [x09; x09]]) = Some (s, rs) /\
    s_handles s = [h] /\ h_phase h = Failed /\ access_of (s_map s) (h_index h) = Some (0, 1%Z).
Proof. eexists _, _, _, _, _. repeat (split; [vm_compute; reflexivity|]). vm_compute. reflexivity. Qed.

(** An access can panic for want of a buffer although a buffer is not in use: the one released is not the next in turn. *)
Theorem pool_spare_refuted :
  exists m bytes s rs s', pool_new Release (fun _ => true) 2 2 = Ret (Ok (m, bytes)) /\
    run Release (fun _ => Some [x01; x02]) [x00; x00]
      [EAccess ReadOnly 5; EFill 0; EAccess ReadOnly 6; EFill 1; ERelease 1; EDropGuard 1] (start m [[x09; x09]; [x09; x09]]) = Some (s, rs) /\
    access_of (s_map s) 0 = None /\ map h_phase (s_handles s) = [Open; Closed] /\
    exec Release (fun _ => Some [x01; x02]) [x00; x00] (EAccess ReadOnly 7) s = Some (s', Some BufferInUse).
Proof. eexists _, _, _, _, _. repeat (split; [vm_compute; reflexivity|]). vm_compute. reflexivity. Qed.
Print Assumptions pool_spare_refuted.

(** ** C41 *)

(** Every access, panic or not, leaves its location with a buffer, and the location keeps it for ever. *)
Theorem pool_mapped_forever : forall p fetch zeros s, reachable p fetch zeros s -> forall md loc s1 r es s2 rs,
  exec p fetch zeros (EAccess md loc) s = Some (s1, r) -> run p fetch zeros es s1 = Some (s2, rs) ->
  exists i, mapped_at (s_map s1) loc = Some i /\ mapped_at (s_map s2) loc = Some i.
Proof.
  intros p fetch zeros s R md loc s1 r es s2 rs E X.
  pose proof (access_maps p fetch zeros s md loc s1 r (reachable_inv _ _ _ _ R) E) as M.
  destruct (mapped_at (s_map s1) loc) as [i|] eqn:Q; [|congruence]. exists i. split; [reflexivity|].
  exact (mapped_forever p fetch zeros es s1 s2 rs loc i X Q).
Qed.
Print Assumptions pool_mapped_forever.

(** So once more locations than buffers have been accessed, two of them have the same buffer. *)
Theorem pool_crowded : forall p fetch zeros s locs, reachable p fetch zeros s -> NoDup locs ->
  length (p_buffers (s_map s)) < length locs -> (forall loc, In loc locs -> mapped_at (s_map s) loc <> None) ->
  exists a b i, In a locs /\ In b locs /\ a <> b /\ mapped_at (s_map s) a = Some i /\ mapped_at (s_map s) b = Some i.
Proof. exact crowded. Qed.
Print Assumptions pool_crowded.

(** Two buffers, three locations used one after the other. *)
Example pool_crowded_ex :
  exists m bytes s rs, pool_new Release (fun _ => true) 2 2 = Ret (Ok (m, bytes)) /\
    run Release (fun _ => Some [x01; x02]) [x00; x00]
      [EAccess ReadOnly 5; EFill 0; ERelease 0; EDropGuard 0; EAccess ReadOnly 6; EFill 1; ERelease 1; EDropGuard 1;
       EAccess ReadOnly 7] (start m [[x09; x09]; [x09; x09]]) = Some (s, rs) /\
    rs = repeat None 9 /\ map (mapped_at (s_map s)) [5%Z; 6%Z; 7%Z] = [Some 1; Some 0; Some 0].
Proof. eexists _, _, _, _. repeat (split; [vm_compute; reflexivity|]). vm_compute. reflexivity. Qed.
