(** * The handles of the buffer pool come to an end *)

From Coq Require Import ZifyBool ZifyNat ZifyN.
From Verif Require Import Base BaseFacts StorageModel StorageSpec PoolModel PoolSpec PoolProofs PoolTheorems PoolDirty.
Local Open Scope nat_scope.

(** Steps a handle has before it. *)
Definition steps (h : handle) : nat :=
  match h_phase h with Filling | Waiting => 3 | Open => 2 | Closing => 1 | _ => 0 end.

Definition total (hs : list handle) : nat := list_sum (map steps hs).

Lemma total_app a b : total (a ++ b) = total a + total b.
Proof. unfold total. rewrite map_app. apply list_sum_app. Qed.

Lemma total_upd hs k h ph : nth_error hs k = Some h -> total (upd hs k (with_phase h ph)) + steps h = total hs + steps (with_phase h ph).
Proof.
  intros K. destruct (split_upd _ _ _ (with_phase h ph) K) as (x & y & -> & -> & _). rewrite !total_app. unfold total. cbn [map].
  change (list_sum (?a :: ?l)) with (a + list_sum l). lia.
Qed.

Lemma total_zero hs : total hs = 0 <-> Forall finished hs.
Proof.
  induction hs as [|h hs IH]; [split; [constructor|reflexivity]|]. rewrite Forall_cons_iff, <- IH.
  change (total (h :: hs)) with (steps h + total hs). unfold finished, steps. destruct (h_phase h); split; intros H.
  all: try lia.
  all: try (split; [auto|lia]).
  all: destruct H as [[H|[H|H]] _]; discriminate.
Qed.

Lemma total_bound hs n : length (filter (fun h => match h_phase h with Closed | Lost | Failed => false | _ => true end) hs) = n ->
  total hs <= 3 * n.
Proof.
  revert n. induction hs as [|h hs IH]; intros n E; [cbn; lia|]. change (total (h :: hs)) with (steps h + total hs).
  cbn [filter] in E. specialize (IH _ eq_refl). unfold steps. destruct (h_phase h); cbn [length] in E; lia.
Qed.

Section Drain.
Context (p : profile) (fetch : Z -> option page) (zeros : page).
Notation exec := (exec p fetch zeros).
Notation run := (run p fetch zeros).
Notation reachable := (reachable p fetch zeros).

Lemma step_down e s s' r : inv s -> winds_down e -> exec e s = Some (s', r) ->
  total (s_handles s') < total (s_handles s) /\ length (s_handles s') = length (s_handles s).
Proof.
  intros I Q E.
  assert (U : forall k h ph, nth_error (s_handles s) k = Some h -> steps (with_phase h ph) < steps h ->
            total (upd (s_handles s) k (with_phase h ph)) < total (s_handles s) /\
            length (upd (s_handles s) k (with_phase h ph)) = length (s_handles s)).
  { intros k h ph K L. pose proof (total_upd _ _ _ ph K). split; [lia|]. apply upd_length. apply nth_error_Some. congruence. }
  destruct e as [md loc|k|k|k pg|k|k|k]; try (destruct Q as [[]|[? [=]]]); cbn [PoolModel.exec] in E.
  all: destruct (nth_error (s_handles s) k) as [h|] eqn:K; [|discriminate]; destruct (h_phase h) eqn:Ph; try discriminate.
  - injection E as E. unfold fill in E.
    destruct (match h_mode h with Initialize => _ | _ => _ end); injection E as <- _; apply U; auto; unfold steps; cbn; rewrite Ph; lia.
  - destruct (match h_mode h with ReadOnly => _ | _ => _ end); [|discriminate]. injection E as <- _.
    apply U; auto; unfold steps; cbn; rewrite Ph; lia.
  - injection E as E. destruct (inv_release s k h I K Ph) as [s1 (E1 & _ & _ & H1)]. rewrite E1 in E. injection E as <- _.
    rewrite H1. apply U; auto; unfold steps; cbn; rewrite Ph; lia.
  - injection E as <- _. apply U; auto; unfold steps; cbn; rewrite Ph; lia.
  - injection E as <- _. apply U; auto; unfold steps; cbn; rewrite Ph; lia.
  - injection E as <- _. apply U; auto; unfold steps; cbn; rewrite Ph; lia.
  - injection E as <- _. apply U; auto; unfold steps; cbn; rewrite Ph; lia.
Qed.

Definition few (s : state) : Prop := p = Debug \/ (Z.of_nat (length (s_handles s)) < 2 ^ 32)%Z.

Lemma run_down es : forall s s' rs, inv s -> few s -> Forall winds_down es -> run es s = Some (s', rs) ->
  length es + total (s_handles s') <= total (s_handles s) /\ length (s_handles s') = length (s_handles s).
Proof.
  induction es as [|e es IH]; intros s s' rs I F Q E; cbn [PoolModel.run] in E; [injection E as <- _; cbn; lia|].
  destruct (exec e s) as [[s1 r]|] eqn:X; [|discriminate]. destruct (run es s1) as [[s2 rs']|] eqn:Y; [|discriminate].
  injection E as <- _. inversion Q as [|? ? Q1 Q2]; subst. destruct (step_down _ _ _ _ I Q1 X) as [D L].
  assert (F1 : few s1) by (unfold few; rewrite L; exact F).
  destruct (IH s1 s2 rs') as [D2 L2]; auto; [eapply exec_inv; eauto|]. cbn [length]. lia.
Qed.

Lemma not_finished s : total (s_handles s) <> 0 -> exists k h, nth_error (s_handles s) k = Some h /\ ~ finished h.
Proof.
  intros N. destruct (Exists_dec (fun h => ~ finished h) (s_handles s)) as [X|X].
  - intros h. unfold finished. destruct (h_phase h); (left; intros [H|[H|H]]; discriminate) || (right; intros H; apply H; auto).
  - apply Exists_exists in X as (h & Ih & H). apply In_nth_error in Ih as [k K]. eauto.
  - exfalso. apply N, total_zero. rewrite <- Forall_Exists_neg in X. eapply Forall_impl; [|exact X]. cbn. intros h H.
    unfold finished in *. destruct (h_phase h); auto; exfalso; apply H; intros [H1|[H1|H1]]; discriminate.
Qed.

Lemma goes s : inv s -> total (s_handles s) <> 0 -> exists e s' r, goes_on e /\ exec e s = Some (s', r) /\ (r = None \/ r = Some FetchFailed).
Proof.
  intros I N. destruct (not_finished s N) as (k & h & K & H).
  assert (Fill : forall k h, nth_error (s_handles s) k = Some h -> h_phase h = Filling ->
            exists e s' r, goes_on e /\ exec e s = Some (s', r) /\ (r = None \/ r = Some FetchFailed)).
  { intros k0 h0 K0 P0. exists (EFill k0). cbn [PoolModel.exec]. rewrite K0, P0. unfold fill.
    destruct (match h_mode h0 with Initialize => _ | _ => _ end); eexists _, _; (split; [exact Logic.I|]); split; auto. }
  destruct (h_phase h) eqn:Ph; try (exfalso; apply H; unfold finished; rewrite Ph; auto; fail).
  - eapply Fill; eauto.
  - destruct (waiting_progress p fetch zeros s k h I K Ph) as [[s' E]|(k2 & h2 & _ & K2 & _ & [[P2 _]|[[P2 [s' E]]|[P2 [s' E]]]])].
    + exists (EAcquire k), s', None. cbn. auto.
    + eapply Fill; eauto.
    + exists (ERelease k2), s', None. split; [exact Logic.I|auto].
    + exists (EDropGuard k2), s', None. split; [exact Logic.I|auto].
  - destruct (release_succeeds p fetch zeros s k h I K Ph) as [s' E]. exists (ERelease k), s', None. split; [exact Logic.I|auto].
  - exists (EDropGuard k). cbn [PoolModel.exec]. rewrite K, Ph. eexists _, _. split; [exact Logic.I|]. split; [reflexivity|auto].
Qed.

Lemma drain n : forall s, inv s -> few s -> total (s_handles s) <= n ->
  exists es s' rs, Forall goes_on es /\ run es s = Some (s', rs) /\ Forall finished (s_handles s') /\
    length (s_handles s') = length (s_handles s) /\ Forall (fun r => r = None \/ r = Some FetchFailed) rs.
Proof.
  induction n as [|n IH]; intros s I F L.
  - exists [], s, []. split; [constructor|]. split; [reflexivity|]. split; [apply total_zero; lia|]. auto.
  - destruct (Nat.eq_dec (total (s_handles s)) 0) as [Z|Z].
    + exists [], s, []. split; [constructor|]. split; [reflexivity|]. split; [apply total_zero; exact Z|]. auto.
    + destruct (goes s I Z) as (e & s1 & r & G & E & R). destruct (step_down e s s1 r I (or_introl G) E) as [D Ln].
      assert (F1 : few s1) by (unfold few; rewrite Ln; exact F).
      destruct (IH s1) as (es & s2 & rs & Gs & E2 & Fi & L2 & Rs); [eapply exec_inv; eauto|exact F1|lia|].
      exists (e :: es), s2, (r :: rs). split; [constructor; assumption|]. split; [cbn [PoolModel.run]; rewrite E, E2; reflexivity|].
      split; [exact Fi|]. split; [lia|]. constructor; assumption.
Qed.

Lemma reachable_few s : reachable s -> few s.
Proof. intros (? & ? & ? & ? & ? & ? & ? & ? & _ & _ & _ & H). exact H. Qed.

(** ** What stays *)

Definition gone (i : nat) (hs : list handle) : Prop := exists h, In h hs /\ h_index h = i /\ (h_phase h = Lost \/ h_phase h = Failed).

Lemma gone_step e s s' r i : inv s -> exec e s = Some (s', r) -> gone i (s_handles s) -> gone i (s_handles s').
Proof.
  intros I E (h & Ih & Hi & P). apply exec_hstep in E; [|exact I].
  assert (U : forall k h0 ph, nth_error (s_handles s) k = Some h0 -> h_phase h0 <> Lost -> h_phase h0 <> Failed ->
            gone i (upd (s_handles s) k (with_phase h0 ph))).
  { intros k h0 ph K N1 N2. exists h. split; [|auto]. eapply in_upd_other; [exact K|exact Ih|]. intros ->. destruct P; contradiction. }
  inversion E as [Eq|h0|h0|h0|k h0|k h0|k h0|k h0 K [Q|Q]|k h0|k h0]; subst; try (apply U; [assumption|congruence|congruence]);
    exists h; rewrite <- ?Eq, ?in_app_iff; auto.
Qed.

Lemma run_gone es : forall s s' rs i, inv s -> few s' -> run es s = Some (s', rs) -> gone i (s_handles s) ->
  inv s' /\ gone i (s_handles s').
Proof.
  induction es as [|e es IH]; intros s s' rs i I F E G; cbn [PoolModel.run] in E; [injection E as <- _; auto|].
  destruct (exec e s) as [[s1 r]|] eqn:X; [|discriminate]. destruct (run es s1) as [[s2 rs']|] eqn:Y; [|discriminate].
  injection E as <- _. pose proof (run_grow _ _ _ _ _ _ _ Y) as Gr.
  apply (IH s1 s2 rs' i); auto; [|eapply gone_step; eauto].
  apply (exec_inv p fetch zeros e s s1 r I); [|exact X]. destruct F as [F|F]; [left; exact F|right; lia].
Qed.

Lemma pinned s i es s' rs : reachable s -> gone i (s_handles s) -> run es s = Some (s', rs) -> few s' -> access_of (s_map s') i <> None.
Proof.
  intros R G E F. destruct (run_gone es s s' rs i (reachable_inv _ _ _ _ R) F E G) as [I (h & Ih & Hi & P)].
  pose proof (counts s' I i) as C. intros A. rewrite A in C. apply (proj1 (count_zero _ _) C h Ih); [|exact Hi].
  unfold counted. destruct P as [-> | ->]; reflexivity.
Qed.

(** ** An idle pool *)

Lemma idle_access s md loc : reachable s -> Forall (fun h => h_phase h = Closed) (s_handles s) ->
  exists s', exec (EAccess md loc) s = Some (s', None).
Proof.
  intros R F. pose proof (reachable_inv _ _ _ _ R) as I. rewrite Forall_forall in F.
  assert (C : forall i, count i (s_handles s) = 0).
  { intros i. apply count_zero. intros h Ih Hc. exfalso. unfold counted in Hc. rewrite (F h Ih) in Hc. discriminate. }
  destruct (access_returns p fetch zeros s md loc I) as (s' & [pn|] & E); [|eauto]. exfalso.
  pose proof (exec_panics p fetch zeros _ s s' pn I E) as X. destruct pn.
  - destruct X as (_ & _ & i & a & _ & _ & _ & A & _). pose proof (counts s I i) as K. rewrite A in K. destruct a as [l n].
    rewrite (C i) in K. lia.
  - destruct X as (_ & _ & _ & _ & h & _ & _ & Ih & _ & P). rewrite (F h Ih) in P. discriminate.
  - destruct X as (_ & _ & i & _ & _ & _ & L). rewrite (C i) in L. lia.
  - destruct X as (k & h & [=] & _).
  - exact X.
  - exact X.
Qed.

End Drain.

(** ** Locations keep their buffer *)

Lemma mapped_access m i a : p_mapped (set_access m i a) = p_mapped m.
Proof. unfold set_access. destruct (nth_error _ i); reflexivity. Qed.

Lemma mapped_dirty m i : p_mapped (set_dirty m i) = p_mapped m.
Proof. unfold set_dirty. destruct (nth_error _ i); reflexivity. Qed.

Lemma mapped_move m l i d m' : move_buffer m l i d = Ret m' -> p_mapped m' = p_mapped m.
Proof.
  unfold move_buffer. destruct (list_remove _ _ _) as [[u ls]| |]; cbn [bind]; try discriminate.
  destruct d; destruct (list_push_front _ _ _) as [[a ls2]| |]; cbn [bind]; try discriminate; intros [= <-]; cbn; apply mapped_access.
Qed.

Lemma mapped_start s m md loc i : p_mapped (s_map (fst (start_access s m md loc i))) = p_mapped m.
Proof.
  unfold start_access. destruct (alloc_lock m (s_fresh s)) as [[l rest] fr].
  destruct (may_write _ l); cbn; rewrite mapped_access; reflexivity.
Qed.

Lemma mapped_step p fetch zeros e s s' r : exec p fetch zeros e s = Some (s', r) ->
  p_mapped (s_map s') = p_mapped (s_map s) \/
  exists loc i, mapped_at (s_map s) loc = None /\ p_mapped (s_map s') = (loc, i) :: p_mapped (s_map s).
Proof.
  destruct e as [md loc|k|k|k pg|k|k|k]; cbn [exec].
  - unfold buffer_access. destruct (mapped_at (s_map s) loc) as [i|] eqn:Mp.
    + destruct (access_of _ i) as [[l n]|].
      * destruct (wadd p 32 n 1); intros [= <- _]; left; cbn; rewrite ?mapped_access; reflexivity.
      * intros [= E]. left. pose proof (mapped_start s (s_map s) md loc i) as X. rewrite E in X. exact X.
    + destruct (_ =? nil_index)%Z; [discriminate|]. destruct (list_remove _ _ _) as [[a1 ls1]| |]; [|intros [= <- _]; left; reflexivity..].
      destruct (list_push_front _ _ _) as [[a2 ls2]| |]; [|intros [= <- _]; left; reflexivity..].
      intros H. right. exists loc, (h_tail (p_available (s_map s))). split; [exact Mp|].
      destruct (access_of _ _); injection H as H; [subst s'; reflexivity|].
      match type of H with start_access ?a ?b ?c ?d ?e = _ => pose proof (mapped_start a b c d e) as X end.
      rewrite H in X. exact X.
  - destruct (nth_error (s_handles s) k) as [h|]; [|discriminate]. destruct (h_phase h); try discriminate.
    intros [= E]. unfold fill in E. destruct (match h_mode h with Initialize => _ | _ => _ end); injection E as <- _; left; reflexivity.
  - destruct (nth_error (s_handles s) k) as [h|]; [|discriminate]. destruct (h_phase h); try discriminate.
    destruct (match h_mode h with ReadOnly => _ | _ => _ end); [|discriminate]. intros [= <- _]. left; reflexivity.
  - destruct (nth_error (s_handles s) k) as [h|]; [|discriminate]. destruct (h_phase h), (h_mode h); try discriminate;
      destruct (_ =? _); try discriminate; intros [= <- _]; left; reflexivity.
  - destruct (nth_error (s_handles s) k) as [h|]; [|discriminate]. destruct (h_phase h); try discriminate.
    intros [= E]. left. unfold release in E.
    set (m := match h_mode h with ReadOnly => _ | _ => _ end) in *.
    assert (M : p_mapped m = p_mapped (s_map s)) by (unfold m; destruct (h_mode h); rewrite ?mapped_dirty; reflexivity).
    destruct (access_of _ _) as [[l n]|]; [|injection E as <- _; reflexivity]. destruct (negb _); [injection E as <- _; reflexivity|].
    destruct (_ <? n)%Z; [injection E as <- _; cbn; rewrite mapped_access; exact M|].
    destruct (move_buffer _ _ _ _) eqn:X; injection E as <- _; cbn; try reflexivity. apply mapped_move in X. congruence.
  - destruct (nth_error (s_handles s) k) as [h|]; [|discriminate]. destruct (h_phase h); try discriminate.
    intros [= <- _]. left; reflexivity.
  - destruct (nth_error (s_handles s) k) as [h|]; [|discriminate]. destruct (h_phase h); try discriminate;
      intros [= <- _]; left; reflexivity.
Qed.

Lemma mapped_forever p fetch zeros es : forall s s' rs loc i, run p fetch zeros es s = Some (s', rs) ->
  mapped_at (s_map s) loc = Some i -> mapped_at (s_map s') loc = Some i.
Proof.
  induction es as [|e es IH]; intros s s' rs loc i E M; cbn [run] in E; [injection E as <- _; exact M|].
  destruct (exec p fetch zeros e s) as [[s1 r]|] eqn:X; [|discriminate]. destruct (run p fetch zeros es s1) as [[s2 rs']|] eqn:Y; [|discriminate].
  injection E as <- _. eapply IH; [exact Y|]. destruct (mapped_step _ _ _ _ _ _ _ X) as [Q|(l & j & N & Q)].
  - unfold mapped_at in *. rewrite Q. exact M.
  - unfold mapped_at in *. rewrite Q. cbn [find fst]. destruct (Z.eqb_spec l loc) as [->|]; [congruence|exact M].
Qed.

(** More locations than buffers. *)
Lemma crowded p fetch zeros s locs : reachable p fetch zeros s -> NoDup locs -> length (p_buffers (s_map s)) < length locs ->
  (forall loc, In loc locs -> mapped_at (s_map s) loc <> None) ->
  exists a b i, In a locs /\ In b locs /\ a <> b /\ mapped_at (s_map s) a = Some i /\ mapped_at (s_map s) b = Some i.
Proof.
  intros R D L M. pose proof (reachable_inv _ _ _ _ R) as I.
  set (f := fun loc => match mapped_at (s_map s) loc with Some i => i | None => 0 end).
  assert (Bound : incl (map f locs) (seq 0 (length (p_buffers (s_map s))))).
  { intros i Hi. apply in_map_iff in Hi as (loc & <- & Hl). unfold f. specialize (M loc Hl).
    destruct (mapped_at (s_map s) loc) as [i|] eqn:E; [|congruence]. apply in_seq. pose proof (iv_mapped s I _ _ E). lia. }
  assert (ND : ~ NoDup (map f locs)).
  { intros N. pose proof (NoDup_incl_length N Bound) as Q. rewrite map_length, seq_length in Q. lia. }
  clear Bound L R. revert D M ND. induction locs as [|a locs IH]; intros D M ND; [exfalso; apply ND; constructor|].
  inversion D as [|? ? Na D']; subst. destruct (in_dec Nat.eq_dec (f a) (map f locs)) as [X|X].
  - apply in_map_iff in X as (b & Eb & Hb). pose proof (M a (or_introl eq_refl)) as Ma. pose proof (M b (or_intror Hb)) as Mb.
    unfold f in Eb. destruct (mapped_at (s_map s) a) as [i|] eqn:Ea; [|congruence]. destruct (mapped_at (s_map s) b) as [j|] eqn:Ebj; [|congruence].
    subst j. exists a, b, i. split; [left; reflexivity|]. split; [right; exact Hb|]. split; [intros ->; contradiction|]. auto.
  - destruct IH as (x & y & i & Hx & Hy & H).
    + exact D'.
    + intros loc Hl. apply M. right. exact Hl.
    + intros N. apply ND. cbn [map]. constructor; assumption.
    + exists x, y, i. split; [right; exact Hx|]. split; [right; exact Hy|]. exact H.
Qed.

Lemma access_maps p fetch zeros s md loc s' r : inv s -> exec p fetch zeros (EAccess md loc) s = Some (s', r) ->
  mapped_at (s_map s') loc <> None.
Proof.
  intros I E. assert (NB : r <> Some ListBroken).
  { intros ->. exact (exec_panics p fetch zeros _ s s' ListBroken I E). }
  destruct (mapped_at (s_map s) loc) as [i|] eqn:Mp.
  - assert (X : run p fetch zeros [EAccess md loc] s = Some (s', [r])) by (cbn [run]; rewrite E; reflexivity).
    rewrite (mapped_forever _ _ _ _ _ _ _ _ _ X Mp). discriminate.
  - cbn [exec] in E. unfold buffer_access in E. rewrite Mp in E. destruct (_ =? nil_index)%Z; [discriminate|].
    destruct (list_remove _ _ _) as [[a1 ls1]| |]; [|injection E as <- <-; congruence..].
    destruct (list_push_front _ _ _) as [[a2 ls2]| |]; [|injection E as <- <-; congruence..].
    assert (X : p_mapped (s_map s') = (loc, h_tail (p_available (s_map s))) :: p_mapped (s_map s)).
    { destruct (access_of _ _); injection E as E; [subst s'; reflexivity|].
      match type of E with start_access ?a ?b ?c ?d ?e = _ => pose proof (mapped_start a b c d e) as X end.
      rewrite E in X. exact X. }
    unfold mapped_at. rewrite X. cbn [find fst]. rewrite Z.eqb_refl. discriminate.
Qed.
