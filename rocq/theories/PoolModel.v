(** * The buffer pool under concurrent use

    src/storage/mod.rs:858-1119 and 1208-1285. The pool is a transition system. One event is one region protected by the
    mutex of the mapping, one operation on a buffer lock, or one use of a page; events of all tasks interleave freely.
    A panic unwinds its task only (the mutex of [async_std] is not poisoned), so the system goes on from the state it
    leaves behind. Condition variables are modelled by their use in [buffer_access] only: nobody waits on
    [buffer_dirty]. *)

From Verif Require Import Base StorageModel.
Local Open Scope Z_scope.

(** Which of [access_read_only] (lines 860-880), [access_read_write] (884-904) and [access_initialize] (908-927) was
    called. *)
Inductive mode : Type := ReadOnly | ReadWrite | Initialize.

(** How far a call and the handle it gives have got. *)
Inductive phase : Type :=
| Filling   (* has taken the new lock exclusively, the page is not filled yet *)
| Waiting   (* waits for the lock *)
| Open      (* the handle is in use and has its guard *)
| Closing   (* [release] has given back the buffer but the guard is not dropped yet (lines 1231-1232, 1273-1274) *)
| Closed
| Lost      (* dropped without [release] (lines 1238-1242, 1280-1284), or cancelled while waiting *)
| Failed.   (* panicked or cancelled after the handle was counted and before the page was filled *)

(** A call of one of the access functions. *)
Record handle : Type := {
  h_mode : mode;
  h_loc : Z;
  h_index : nat;
  h_lock : nat;
  h_phase : phase
}.

(** The guard on its lock that a handle has. [RwLockWriteGuard::downgrade] (line 871) happens together with the end of
    filling. *)
Inductive guard : Type := NoGuard | ReadGuard | WriteGuard.

Definition guard_of (h : handle) : guard :=
  match h_phase h with
  | Filling => WriteGuard
  | Open | Closing => match h_mode h with ReadOnly => ReadGuard | _ => WriteGuard end
  | _ => NoGuard
  end.

Definition page : Type := list byte.

(** [s_map] is the content of the mutex (locks are numbered; the last lock of [read_write_locks] comes first),
    [s_pages] the memory by buffers, [s_handles] all calls so far, [s_fresh] the number of locks made. *)
Record state : Type := {
  s_map : mapping;
  s_pages : list page;
  s_handles : list handle;
  s_fresh : nat
}.

(** Ways to panic. *)
Inductive panic : Type :=
| BufferInUse    (* line 950 *)
| LockHeld       (* lines 963 and 987 *)
| TooManyHandles (* line 995, with overflow checks *)
| FetchFailed    (* lines 869-870 and 893-894; [fetch] itself, line 636, is not implemented *)
| ListBroken     (* an assertion or index of the list operations *)
| NoAccess.      (* lines 1018-1021 and 1078-1081: the release of a buffer that is not in use *)

(** What tasks do. Handles are named by their number. *)
Inductive event : Type :=
| EAccess (m : mode) (loc : Z)
| EFill (k : nat)
| EAcquire (k : nat)
| EWrite (k : nat) (pg : page)
| ERelease (k : nat)
| EDropGuard (k : nat)
| EAbandon (k : nat).

Definition upd {A : Type} (l : list A) (i : nat) (a : A) : list A := firstn i l ++ a :: skipn (S i) l.

Definition with_phase (h : handle) (ph : phase) : handle :=
  {| h_mode := h_mode h; h_loc := h_loc h; h_index := h_index h; h_lock := h_lock h; h_phase := ph |}.

Definition set_phase (s : state) (k : nat) (h : handle) (ph : phase) : state :=
  {| s_map := s_map s; s_pages := s_pages s; s_handles := upd (s_handles s) k (with_phase h ph); s_fresh := s_fresh s |}.

(** [async_std::sync::RwLock]: a guard can be had for reading if there is no guard for writing, for writing if there is
    no guard. *)
Definition may_read (hs : list handle) (l : nat) : bool :=
  forallb (fun h => match guard_of h with WriteGuard => negb (h_lock h =? l)%nat | _ => true end) hs.

Definition may_write (hs : list handle) (l : nat) : bool :=
  forallb (fun h => match guard_of h with NoGuard => true | _ => negb (h_lock h =? l)%nat end) hs.

(** [BTreeMap::get] on [mapped_locations]. *)
Definition mapped_at (m : mapping) (loc : Z) : option nat :=
  option_map (fun e => Z.to_nat (snd e)) (find (fun e => fst e =? loc) (p_mapped m)).

Definition access_of (m : mapping) (i : nat) : option (nat * Z) :=
  match nth_error (p_buffers m) i with Some b => b_access b | None => None end.

Definition set_access (m : mapping) (i : nat) (a : option (nat * Z)) : mapping :=
  match nth_error (p_buffers m) i with
  | Some b =>
      {| p_links := p_links m;
         p_buffers := upd (p_buffers m) i {| b_access := a; b_dirty := b_dirty b; b_submitted := b_submitted b |};
         p_mapped := p_mapped m; p_locks := p_locks m; p_in_use := p_in_use m; p_dirty := p_dirty m;
         p_available := p_available m |}
  | None => m
  end.

Definition set_dirty (m : mapping) (i : nat) : mapping :=
  match nth_error (p_buffers m) i with
  | Some b =>
      {| p_links := p_links m;
         p_buffers := upd (p_buffers m) i {| b_access := b_access b; b_dirty := true; b_submitted := b_submitted b |};
         p_mapped := p_mapped m; p_locks := p_locks m; p_in_use := p_in_use m; p_dirty := p_dirty m;
         p_available := p_available m |}
  | None => m
  end.

Definition set_locks (m : mapping) (locks : list nat) : mapping :=
  {| p_links := p_links m; p_buffers := p_buffers m; p_mapped := p_mapped m; p_locks := locks; p_in_use := p_in_use m;
     p_dirty := p_dirty m; p_available := p_available m |}.

Definition set_lists (m : mapping) (ls : list link) (in_use dirty available : head) : mapping :=
  {| p_links := ls; p_buffers := p_buffers m; p_mapped := p_mapped m; p_locks := p_locks m; p_in_use := in_use;
     p_dirty := dirty; p_available := available |}.

Definition insert_mapped (m : mapping) (loc i : Z) : mapping :=
  {| p_links := p_links m; p_buffers := p_buffers m; p_mapped := (loc, i) :: p_mapped m; p_locks := p_locks m;
     p_in_use := p_in_use m; p_dirty := p_dirty m; p_available := p_available m |}.

Definition add_handle (s : state) (m : mapping) (fresh : nat) (h : handle) : state :=
  {| s_map := m; s_pages := s_pages s; s_handles := s_handles s ++ [h]; s_fresh := fresh |}.

(** src/storage/mod.rs:766-771 [alloc_lock]: the lock, the locks left, the number of locks made. *)
Definition alloc_lock (m : mapping) (fresh : nat) : nat * list nat * nat :=
  match p_locks m with
  | l :: rest => (l, rest, fresh)
  | [] => (fresh, [], S fresh)
  end.

(** src/storage/mod.rs:952-966 and 977-990: the buffer gets a lock, which is taken at once. *)
Definition start_access (s : state) (m : mapping) (md : mode) (loc : Z) (i : nat) : state * option panic :=
  let '(l, rest, fresh) := alloc_lock m (s_fresh s) in
  let m1 := set_access (set_locks m rest) i (Some (l, 1)) in
  let h ph := {| h_mode := md; h_loc := loc; h_index := i; h_lock := l; h_phase := ph |} in
  if may_write (s_handles s) l then (add_handle s m1 fresh (h Filling), None)
  else (add_handle s m1 fresh (h Failed), Some LockHeld).

Definition with_map (s : state) (m : mapping) : state :=
  {| s_map := m; s_pages := s_pages s; s_handles := s_handles s; s_fresh := s_fresh s |}.

(** src/storage/mod.rs:929-1002 [buffer_access]. [None]: the task waits for [buffer_available]. Line 945 takes the list of
    available buffers again, not the list of buffers in use. *)
Definition buffer_access (p : profile) (s : state) (md : mode) (loc : Z) : option (state * option panic) :=
  let m := s_map s in
  match mapped_at m loc with
  | None =>
      let i := h_tail (p_available m) in
      if i =? nil_index then None
      else
        match list_remove (p_available m) (p_links m) i with
        | Ret (a1, ls1) =>
            match list_push_front a1 ls1 i with
            | Ret (a2, ls2) =>
                let m1 := insert_mapped (set_lists m ls2 (p_in_use m) (p_dirty m) a2) loc i in
                match access_of m1 (Z.to_nat i) with
                | Some _ => Some (with_map s m1, Some BufferInUse)
                | None => Some (start_access s m1 md loc (Z.to_nat i))
                end
            | _ => Some (with_map s (set_lists m ls1 (p_in_use m) (p_dirty m) a1), Some ListBroken)
            end
        | _ => Some (s, Some ListBroken)
        end
  | Some i =>
      match access_of m i with
      | None => Some (start_access s m md loc i)
      | Some (l, n) =>
          match wadd p 32 n 1 with
          | Ret n' =>
              Some (add_handle s (set_access m i (Some (l, n'))) (s_fresh s)
                      {| h_mode := md; h_loc := loc; h_index := i; h_lock := l; h_phase := Waiting |}, None)
          | _ => Some (s, Some TooManyHandles)
          end
      end
  end.

(** src/storage/mod.rs:863-873, 887-897, 911-920 for a handle that has to fill its page. *)
Definition fill (fetch : Z -> option page) (zeros : page) (s : state) (k : nat) (h : handle) : state * option panic :=
  match (match h_mode h with Initialize => Some zeros | _ => fetch (h_loc h) end) with
  | Some pg =>
      ({| s_map := s_map s; s_pages := upd (s_pages s) (h_index h) pg;
          s_handles := upd (s_handles s) k (with_phase h Open); s_fresh := s_fresh s |}, None)
  | None => (set_phase s k h Failed, Some FetchFailed)
  end.

(** src/storage/mod.rs:1042-1061 and 1102-1117: giving back the lock and moving the buffer to another list. *)
Definition move_buffer (m : mapping) (l i : nat) (dirty : bool) : outcome mapping :=
  let m1 := set_locks (set_access m i None) (l :: p_locks m) in
  '(u1, ls1) <- list_remove (p_in_use m1) (p_links m1) (Z.of_nat i mod 2 ^ 32) ;;
  if dirty then
    '(d, ls2) <- list_push_front (p_dirty m1) ls1 (Z.of_nat i mod 2 ^ 32) ;;
    Ret (set_lists m1 ls2 u1 d (p_available m1))
  else
    '(a, ls2) <- list_push_front (p_available m1) ls1 (Z.of_nat i mod 2 ^ 32) ;;
    Ret (set_lists m1 ls2 u1 (p_dirty m1) a).

(** src/storage/mod.rs:1005-1062 [release_read_only] and 1065-1118 [release_read_write]. A panic here unwinds through the
    [Drop] of the handle, which panics again; the state is then of no interest. *)
Definition release (s : state) (k : nat) (h : handle) : state * option panic :=
  let i := h_index h in
  let m := match h_mode h with ReadOnly => s_map s | _ => set_dirty (s_map s) i end in
  match access_of m i with
  | None => (s, Some NoAccess)
  | Some (l, n) =>
      if negb (0 <? n) then (s, Some NoAccess)
      else if 1 <? n then (set_phase (with_map s (set_access m i (Some (l, n - 1)))) k h Closing, None)
      else
        match move_buffer m l i (match nth_error (p_buffers m) i with Some b => b_dirty b | None => false end) with
        | Ret m1 => (set_phase (with_map s m1) k h Closing, None)
        | _ => (s, Some ListBroken)
        end
  end.

(** One event: the new state and the panic, if any; [None] if the event cannot happen now. *)
Definition exec (p : profile) (fetch : Z -> option page) (zeros : page) (e : event) (s : state)
  : option (state * option panic) :=
  match e with
  | EAccess md loc => buffer_access p s md loc
  | EFill k =>
      match nth_error (s_handles s) k with
      | Some h => match h_phase h with Filling => Some (fill fetch zeros s k h) | _ => None end
      | None => None
      end
  | EAcquire k =>
      match nth_error (s_handles s) k with
      | Some h =>
          match h_phase h with
          | Waiting =>
              let free := match h_mode h with
                          | ReadOnly => may_read (s_handles s) (h_lock h)
                          | _ => may_write (s_handles s) (h_lock h)
                          end in
              if free then Some (set_phase s k h Open, None) else None
          | _ => None
          end
      | None => None
      end
  | EWrite k pg =>
      match nth_error (s_handles s) k with
      | Some h =>
          match h_phase h, h_mode h with
          | Open, (ReadWrite | Initialize) =>
              if (length pg =? length zeros)%nat then
                Some ({| s_map := s_map s; s_pages := upd (s_pages s) (h_index h) pg; s_handles := s_handles s;
                         s_fresh := s_fresh s |}, None)
              else None
          | _, _ => None
          end
      | None => None
      end
  | ERelease k =>
      match nth_error (s_handles s) k with
      | Some h => match h_phase h with Open => Some (release s k h) | _ => None end
      | None => None
      end
  | EDropGuard k =>
      match nth_error (s_handles s) k with
      | Some h => match h_phase h with Closing => Some (set_phase s k h Closed, None) | _ => None end
      | None => None
      end
  | EAbandon k =>
      match nth_error (s_handles s) k with
      | Some h =>
          match h_phase h with
          | Open | Waiting => Some (set_phase s k h Lost, None)
          | Filling => Some (set_phase s k h Failed, None)
          | _ => None
          end
      | None => None
      end
  end.

(** A schedule; the panics in order. *)
Fixpoint run (p : profile) (fetch : Z -> option page) (zeros : page) (es : list event) (s : state)
  : option (state * list (option panic)) :=
  match es with
  | [] => Some (s, [])
  | e :: es' =>
      match exec p fetch zeros e s with
      | Some (s1, r) =>
          match run p fetch zeros es' s1 with
          | Some (s2, rs) => Some (s2, r :: rs)
          | None => None
          end
      | None => None
      end
  end.

(** A new pool with [m] from [pool_new]. *)
Definition start (m : mapping) (pages : list page) : state :=
  {| s_map := m; s_pages := pages; s_handles := []; s_fresh := 0 |}.
