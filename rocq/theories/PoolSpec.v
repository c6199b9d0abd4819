(** * What the buffer pool properties say *)

From Verif Require Import Base StorageModel PoolModel.

(** Handles that [num_handles] has to count: all that have been given out and not been released. *)
Definition counted (h : handle) : bool :=
  match h_phase h with Closing | Closed => false | _ => true end.

Definition count (i : nat) (hs : list handle) : nat :=
  length (filter (fun h => counted h && (h_index h =? i)) hs).

(** The states that occur: any schedule from a new pool. With overflow checks no pool can be made (C39); [p] is the
    profile of the operations after that. Without them the count of handles is right below 2^32 calls only. *)
Definition reachable (p : profile) (fetch : Z -> option page) (zeros : page) (s : state) : Prop :=
  exists map_anon buffer_size num_buffers m bytes pages es rs,
    pool_new Release map_anon buffer_size num_buffers = Ret (Ok (m, bytes)) /\
    length pages = length (p_buffers m) /\
    run p fetch zeros es (start m pages) = Some (s, rs) /\
    (p = Debug \/ (Z.of_nat (length (s_handles s)) < 2 ^ 32)%Z).

(** The handle can be used to read or write the page. *)
Definition holds_page (h : handle) : Prop := h_phase h = Open \/ h_phase h = Filling.

(** The same state but for the content of the pages. *)
Definition with_pages (s : state) (pages : list page) : state :=
  {| s_map := s_map s; s_pages := pages; s_handles := s_handles s; s_fresh := s_fresh s |}.

(** The handle is done with: released, dropped without release, or never usable. *)
Definition finished (h : handle) : Prop := h_phase h = Closed \/ h_phase h = Lost \/ h_phase h = Failed.

(** Events that bring a call under way to its end in the usual way. *)
Definition goes_on (e : event) : Prop :=
  match e with EFill _ | EAcquire _ | ERelease _ | EDropGuard _ => True | _ => False end.

(** The same with cancellation: no new call, no write. *)
Definition winds_down (e : event) : Prop := goes_on e \/ exists k, e = EAbandon k.
