(** * Consequences of the invariant of the buffer pool *)

From Coq Require Import ZifyBool ZifyNat ZifyN.
From Verif Require Import Base BaseFacts StorageModel StorageSpec ListPtr StorageProofs PoolModel PoolSpec PoolProofs.
Local Open Scope nat_scope.
Ltac Zify.zify_post_hook ::= Z.div_mod_to_equations.

Lemma reachable_inv p fetch zeros s : reachable p fetch zeros s -> inv s.
Proof.
  intros (map_anon & bs & n & m & bytes & pages & es & rs & E & L & R & H).
  eapply run_inv; [eapply inv_start_state; eauto|exact H|exact R].
Qed.

(** ** Counting and exclusion *)

Lemma counts s : inv s -> forall i,
  match access_of (s_map s) i with
  | None => count i (s_handles s) = 0
  | Some (l, n) => n = Z.of_nat (count i (s_handles s)) /\ 0 < count i (s_handles s) /\
      forall h, In h (s_handles s) -> counted h = true -> h_index h = i -> h_lock h = l
  end.
Proof.
  intros I i. pose proof (iv_count s I i) as D. destruct (access_of (s_map s) i) as [[l c]|]; [|exact D].
  destruct D as (D1 & D2 & _ & _ & D5). auto.
Qed.

Lemma same_lock s h1 h2 : inv s -> In h1 (s_handles s) -> In h2 (s_handles s) ->
  counted h1 = true -> counted h2 = true -> h_index h1 = h_index h2 -> h_lock h1 = h_lock h2.
Proof.
  intros I I1 I2 C1 C2 E. pose proof (iv_count s I (h_index h1)) as D.
  pose proof (count_pos (h_index h1) _ h1 I1 C1 eq_refl).
  destruct (access_of (s_map s) (h_index h1)) as [[l c]|]; [|lia]. destruct D as (_ & _ & _ & _ & D).
  rewrite (D h1), (D h2); auto.
Qed.

Lemma exclusive s k1 k2 h1 h2 : inv s ->
  nth_error (s_handles s) k1 = Some h1 -> nth_error (s_handles s) k2 = Some h2 -> k1 <> k2 ->
  h_index h1 = h_index h2 -> holds_page h1 -> holds_page h2 ->
  h_phase h1 = Open /\ h_mode h1 = ReadOnly /\ h_phase h2 = Open /\ h_mode h2 = ReadOnly.
Proof.
  intros I K1 K2 N E U1 U2.
  assert (C : forall h, holds_page h -> counted h = true) by (intros h [U|U]; unfold counted; rewrite U; reflexivity).
  assert (L : h_lock h1 = h_lock h2).
  { eapply same_lock; eauto using nth_error_In. }
  assert (G : forall h, holds_page h -> guard_of h <> NoGuard).
  { intros h [U|U]; unfold guard_of; rewrite U; [destruct (h_mode h); discriminate|discriminate]. }
  assert (W : forall h, holds_page h -> guard_of h <> WriteGuard -> h_phase h = Open /\ h_mode h = ReadOnly).
  { intros h [U|U]; unfold guard_of; rewrite U; [destruct (h_mode h); [auto|intros X; now elim X..]|intros X; now elim X]. }
  pose proof (iv_guards s I) as Q.
  destruct (W h1 U1) as [A B]; [intros X; apply (G h2 U2); eapply (Q k1 k2); eauto|].
  destruct (W h2 U2) as [A' B']; [intros X; apply (G h1 U1); eapply (Q k2 k1); eauto|]. auto.
Qed.

Lemma pages_access p s md loc s' r : buffer_access p s md loc = Some (s', r) -> s_pages s' = s_pages s.
Proof.
  assert (Sa : forall m md loc i, s_pages (fst (start_access s m md loc i)) = s_pages s).
  { intros. unfold start_access. destruct (alloc_lock m (s_fresh s)) as [[l rest] fr]. destruct (may_write _ l); reflexivity. }
  unfold buffer_access. destruct (mapped_at _ loc) as [i|].
  - destruct (access_of _ i) as [[l n]|].
    + destruct (wadd p 32 n 1); intros [= <- _]; reflexivity.
    + intros [= E]. specialize (Sa (s_map s) md loc i). rewrite E in Sa. exact Sa.
  - destruct (_ =? nil_index)%Z; [discriminate|]. destruct (list_remove _ _ _) as [[a1 ls1]| |]; [|intros [= <- _]; reflexivity..].
    destruct (list_push_front _ _ _) as [[a2 ls2]| |]; [|intros [= <- _]; reflexivity..].
    destruct (access_of _ _); [intros [= <- _]; reflexivity|]. intros [= E].
    specialize (Sa (insert_mapped (set_lists (s_map s) ls2 (p_in_use (s_map s)) (p_dirty (s_map s)) a2) loc (h_tail (p_available (s_map s))))
                   md loc (Z.to_nat (h_tail (p_available (s_map s))))). rewrite E in Sa. exact Sa.
Qed.

Lemma page_stable p fetch zeros e s s' r k h : inv s ->
  exec p fetch zeros e s = Some (s', r) -> nth_error (s_handles s) k = Some h -> h_phase h = Open ->
  (forall pg, e <> EWrite k pg) -> nth_error (s_pages s') (h_index h) = nth_error (s_pages s) (h_index h).
Proof.
  intros I E K Ph N.
  assert (Other : forall k2 h2, nth_error (s_handles s) k2 = Some h2 -> k2 <> k -> guard_of h2 = WriteGuard -> holds_page h2 ->
                   h_index h2 <> h_index h).
  { intros k2 h2 K2 N2 G U X. destruct (exclusive s k2 k h2 h I K2 K N2 X U (or_introl Ph)) as (A & B & _).
    unfold guard_of in G. rewrite A, B in G. discriminate. }
  assert (Up : forall k2 h2 pg, nth_error (s_handles s) k2 = Some h2 -> h_index h2 <> h_index h ->
                nth_error (upd (s_pages s) (h_index h2) pg) (h_index h) = nth_error (s_pages s) (h_index h)).
  { intros k2 h2 pg K2 X. destruct (iv_handles s I h2 (nth_error_In _ _ K2)) as (Hi & _). rewrite <- (iv_pages s I) in Hi.
    rewrite nth_upd by exact Hi. replace (h_index h =? h_index h2) with false by lia. reflexivity. }
  destruct e as [md loc|k2|k2|k2 pg|k2|k2|k2]; cbn [exec] in E.
  - now rewrite (pages_access _ _ _ _ _ _ E).
  - destruct (nth_error (s_handles s) k2) as [h2|] eqn:K2; [|discriminate]. destruct (h_phase h2) eqn:Ph2; try discriminate.
    injection E as E. unfold fill in E.
    destruct (match h_mode h2 with Initialize => _ | _ => _ end) as [pg|]; injection E as <- _; [|reflexivity].
    cbn [s_pages]. apply (Up k2); [exact K2|]. apply (Other k2); auto; [congruence|unfold guard_of; now rewrite Ph2|now right].
  - destruct (nth_error (s_handles s) k2) as [h2|] eqn:K2; [|discriminate]. destruct (h_phase h2) eqn:Ph2; try discriminate.
    destruct (match h_mode h2 with ReadOnly => _ | _ => _ end); [|discriminate]. injection E as <- _. reflexivity.
  - destruct (nth_error (s_handles s) k2) as [h2|] eqn:K2; [|discriminate].
    assert (k2 <> k) by (intros ->; now apply (N pg)).
    destruct (h_phase h2) eqn:Ph2; try discriminate.
    destruct (h_mode h2) eqn:Md; try discriminate; (destruct (length pg =? length zeros); [|discriminate]); injection E as <- _;
      cbn [s_pages]; (apply (Up k2); [exact K2|]); (apply (Other k2); auto; [unfold guard_of; now rewrite Ph2, Md|now left]).
  - destruct (nth_error (s_handles s) k2) as [h2|] eqn:K2; [|discriminate]. destruct (h_phase h2) eqn:Ph2; try discriminate.
    injection E as E. destruct (inv_release s k2 h2 I K2 Ph2) as [s1 (E1 & _ & P & _)]. rewrite E1 in E. injection E as <- _. now rewrite P.
  - destruct (nth_error (s_handles s) k2) as [h2|] eqn:K2; [|discriminate]. destruct (h_phase h2) eqn:Ph2; try discriminate.
    injection E as <- _. reflexivity.
  - destruct (nth_error (s_handles s) k2) as [h2|] eqn:K2; [|discriminate]. destruct (h_phase h2) eqn:Ph2; try discriminate;
      injection E as <- _; reflexivity.
Qed.

Lemma release_succeeds p fetch zeros s k h : inv s -> nth_error (s_handles s) k = Some h -> h_phase h = Open ->
  exists s', exec p fetch zeros (ERelease k) s = Some (s', None).
Proof.
  intros I K Ph. cbn [exec]. rewrite K, Ph. destruct (inv_release s k h I K Ph) as [s1 (E1 & _)]. rewrite E1. eauto.
Qed.

(** ** Handles along a step *)

Inductive hstep (e : event) (hs : list handle) : list handle -> Prop :=
| hs_same : hstep e hs hs
| hs_new_filling h : h_phase h = Filling -> count (h_index h) hs = 0 -> hstep e hs (hs ++ [h])
| hs_new_failed h : h_phase h = Failed -> hstep e hs (hs ++ [h])
| hs_new_waiting h : h_phase h = Waiting -> 0 < count (h_index h) hs -> hstep e hs (hs ++ [h])
| hs_filled k h : e = EFill k -> nth_error hs k = Some h -> h_phase h = Filling -> hstep e hs (upd hs k (with_phase h Open))
| hs_failed k h : nth_error hs k = Some h -> h_phase h = Filling -> hstep e hs (upd hs k (with_phase h Failed))
| hs_acquired k h : nth_error hs k = Some h -> h_phase h = Waiting ->
    (forall h2, In h2 hs -> h_lock h2 = h_lock h -> guard_of h2 <> WriteGuard) -> hstep e hs (upd hs k (with_phase h Open))
| hs_lost k h : nth_error hs k = Some h -> h_phase h = Waiting \/ h_phase h = Open -> hstep e hs (upd hs k (with_phase h Lost))
| hs_closing k h : nth_error hs k = Some h -> h_phase h = Open -> hstep e hs (upd hs k (with_phase h Closing))
| hs_closed k h : nth_error hs k = Some h -> h_phase h = Closing -> hstep e hs (upd hs k (with_phase h Closed)).

Lemma start_access_handles s m md loc i : exists h, s_handles (fst (start_access s m md loc i)) = s_handles s ++ [h] /\ h_index h = i /\
  (h_phase h = Filling \/ h_phase h = Failed).
Proof.
  unfold start_access. destruct (alloc_lock m (s_fresh s)) as [[l rest] fr].
  destruct (may_write _ l); cbn; eexists; (split; [reflexivity|]); cbn; auto.
Qed.

Lemma exec_hstep p fetch zeros e s s' r : inv s -> exec p fetch zeros e s = Some (s', r) -> hstep e (s_handles s) (s_handles s').
Proof.
  intros I E.
  assert (Sa : forall m md loc i s1, s1 = fst (start_access s m md loc i) -> count i (s_handles s) = 0 ->
               hstep e (s_handles s) (s_handles s1)).
  { intros m md loc i s1 -> C. destruct (start_access_handles s m md loc i) as [h [-> [<- [X|X]]]];
      [now apply hs_new_filling|now apply hs_new_failed]. }
  destruct e as [md loc|k|k|k pg|k|k|k]; cbn [exec] in E.
  - destruct (mapped_at (s_map s) loc) as [i|] eqn:Mp.
    + unfold buffer_access in E. rewrite Mp in E. pose proof (iv_count s I i) as D.
      destruct (access_of (s_map s) i) as [[l n]|].
      * destruct (wadd p 32 n 1); injection E as <- _; try apply hs_same. cbn. apply hs_new_waiting; [reflexivity|]. cbn. tauto.
      * injection E as E. eapply Sa; [|exact D]. now rewrite E.
    + destruct (access_unmapped p s md loc I Mp) as [i [s1 (Li & _ & I1 & P1 & H1 & F1 & B1 & _ & M1 & Eb)]]. rewrite Eb in E.
      pose proof (iv_count s I i) as D. destruct (access_of (s_map s) i).
      * injection E as <- _. rewrite H1. apply hs_same.
      * injection E as E. eapply Sa; [|exact D]. now rewrite E.
  - destruct (nth_error (s_handles s) k) as [h|] eqn:K; [|discriminate]. destruct (h_phase h) eqn:Ph; try discriminate.
    injection E as E. unfold fill in E.
    destruct (match h_mode h with Initialize => _ | _ => _ end) as [pg|]; injection E as <- _; cbn; [now apply hs_filled|now apply hs_failed].
  - destruct (nth_error (s_handles s) k) as [h|] eqn:K; [|discriminate]. destruct (h_phase h) eqn:Ph; try discriminate.
    destruct (match h_mode h with ReadOnly => _ | _ => _ end) eqn:Fr; [|discriminate]. injection E as <- _. cbn.
    apply hs_acquired; auto. intros h2 I2 L G.
    destruct (h_mode h).
    + exact (proj1 (may_read_spec _ _) Fr h2 I2 L G).
    + rewrite (proj1 (may_write_spec _ _) Fr h2 I2 L) in G. discriminate.
    + rewrite (proj1 (may_write_spec _ _) Fr h2 I2 L) in G. discriminate.
  - destruct (nth_error (s_handles s) k) as [h|] eqn:K; [|discriminate].
    destruct (h_phase h), (h_mode h); try discriminate; destruct (length pg =? length zeros); try discriminate;
      injection E as <- _; apply hs_same.
  - destruct (nth_error (s_handles s) k) as [h|] eqn:K; [|discriminate]. destruct (h_phase h) eqn:Ph; try discriminate.
    injection E as E. destruct (inv_release s k h I K Ph) as [s1 (E1 & _ & _ & H1)]. rewrite E1 in E. injection E as <- _.
    rewrite H1. now apply hs_closing.
  - destruct (nth_error (s_handles s) k) as [h|] eqn:K; [|discriminate]. destruct (h_phase h) eqn:Ph; try discriminate.
    injection E as <- _. now apply hs_closed.
  - destruct (nth_error (s_handles s) k) as [h|] eqn:K; [|discriminate]. destruct (h_phase h) eqn:Ph; try discriminate;
      injection E as <- _; cbn; [now apply hs_failed|apply hs_lost; auto|apply hs_lost; auto].
Qed.

(** ** The old content of a buffer *)

Lemma with_pages_same s : with_pages s (s_pages s) = s.
Proof. destruct s; reflexivity. Qed.

Lemma page_step p fetch zeros e s s' r : exec p fetch zeros e s = Some (s', r) ->
  (s_pages s' = s_pages s /\ (forall q, exec p fetch zeros e (with_pages s q) = Some (with_pages s' q, r)) /\
     (forall k, e = EFill k -> exists h, nth_error (s_handles s) k = Some h /\ s_handles s' = upd (s_handles s) k (with_phase h Failed))) \/
  (exists k h pg, nth_error (s_handles s) k = Some h /\ (forall k2, e = EFill k2 -> k2 = k) /\
     s_pages s' = upd (s_pages s) (h_index h) pg /\
     forall q, exec p fetch zeros e (with_pages s q) = Some (with_pages s' (upd q (h_index h) pg), r)).
Proof.
  intros E.
  assert (Sa : forall q m md loc i, start_access (with_pages s q) m md loc i =
     (with_pages (fst (start_access s m md loc i)) q, snd (start_access s m md loc i))).
  { intros. unfold start_access. cbn [s_fresh s_handles with_pages]. destruct (alloc_lock m (s_fresh s)) as [[l rest] fr].
    destruct (may_write _ l); reflexivity. }
  destruct e as [md loc|k|k|k pg|k|k|k]; cbn [exec] in E |- *.
  - left. split; [eapply pages_access; eauto|split; [|discriminate]]. intros q. revert E. unfold buffer_access. cbn [s_map with_pages].
    destruct (mapped_at _ loc) as [i|].
    + destruct (access_of _ i) as [[l n]|].
      * destruct (wadd p 32 n 1); intros [= <- <-]; reflexivity.
      * intros [= E]. now rewrite Sa, E.
    + destruct (_ =? nil_index)%Z; [discriminate|]. destruct (list_remove _ _ _) as [[a1 ls1]| |]; [|intros [= <- <-]; reflexivity..].
      destruct (list_push_front _ _ _) as [[a2 ls2]| |]; [|intros [= <- <-]; reflexivity..].
      destruct (access_of _ _); [intros [= <- <-]; reflexivity|]. intros [= E]. now rewrite Sa, E.
  - cbn [s_handles with_pages]. destruct (nth_error (s_handles s) k) as [h|] eqn:K; [|discriminate]. destruct (h_phase h); try discriminate.
    injection E as E. unfold fill in *. destruct (match h_mode h with Initialize => _ | _ => _ end) as [pg|]; injection E as <- <-.
    + right. exists k, h, pg. split; [exact K|]. split; [congruence|]. auto.
    + left. split; [reflexivity|split; [reflexivity|]]. intros k2 [= <-]. exists h. split; [exact K|reflexivity].
  - left. cbn [s_handles with_pages]. destruct (nth_error (s_handles s) k) as [h|] eqn:K; [|discriminate]. destruct (h_phase h); try discriminate.
    destruct (match h_mode h with ReadOnly => _ | _ => _ end); [|discriminate]. injection E as <- <-.
    split; [reflexivity|split; [reflexivity|discriminate]].
  - right. cbn [s_handles with_pages]. destruct (nth_error (s_handles s) k) as [h|] eqn:K; [|discriminate]. exists k, h, pg.
    destruct (h_phase h), (h_mode h); try discriminate; destruct (length pg =? length zeros); try discriminate; injection E as <- <-;
      (split; [exact K|]; split; [discriminate|]; auto).
  - left. cbn [s_handles with_pages]. destruct (nth_error (s_handles s) k) as [h|] eqn:K; [|discriminate]. destruct (h_phase h); try discriminate.
    injection E as E. revert E. unfold release. cbn [s_map with_pages].
    destruct (access_of _ _) as [[l n]|]; [|intros [= <- <-]; split; [reflexivity|split; [reflexivity|discriminate]]].
    destruct (negb _); [intros [= <- <-]; split; [reflexivity|split; [reflexivity|discriminate]]|].
    destruct (1 <? n)%Z; [intros [= <- <-]; split; [reflexivity|split; [reflexivity|discriminate]]|].
    destruct (move_buffer _ _ _ _); intros [= <- <-]; split; [reflexivity|split; [reflexivity|discriminate]| |
      split; [reflexivity|discriminate]|reflexivity|split; [reflexivity|discriminate]]. reflexivity.
  - left. cbn [s_handles with_pages]. destruct (nth_error (s_handles s) k) as [h|] eqn:K; [|discriminate]. destruct (h_phase h); try discriminate.
    injection E as <- <-. split; [reflexivity|split; [reflexivity|discriminate]].
  - left. cbn [s_handles with_pages]. destruct (nth_error (s_handles s) k) as [h|] eqn:K; [|discriminate]. destruct (h_phase h); try discriminate;
    injection E as <- <-; (split; [reflexivity|split; [reflexivity|discriminate]]).
Qed.

Definition failed_on (i : nat) (hs : list handle) : Prop := exists h, In h hs /\ h_index h = i /\ h_phase h = Failed.

(** Nobody has seen the page yet, and whoever comes first fills it. *)
Definition unseen (i : nat) (hs : list handle) : Prop :=
  (forall h, In h hs -> h_index h = i -> h_phase h <> Open) /\
  (count i hs = 0 \/ exists h, In h hs /\ h_index h = i /\ h_phase h = Filling).

Lemma in_upd_other {A} (l : list A) k x y a : nth_error l k = Some a -> In y l -> y <> a -> In y (upd l k x).
Proof.
  intros K Y N. apply In_nth_error in Y. destruct Y as [j J]. assert (j <> k) by (intros ->; congruence).
  apply nth_error_In with (n := j). assert (k < length l) by (apply nth_error_Some; congruence). rewrite nth_upd by assumption.
  replace (j =? k) with false by lia. exact J.
Qed.

Lemma failed_persists i e hs hs' : hstep e hs hs' -> failed_on i hs -> failed_on i hs'.
Proof.
  intros S [f (F1 & F2 & F3)]. exists f. split; [|auto].
  destruct S; auto using in_or_app; eapply in_upd_other; eauto; intros ->; intuition congruence.
Qed.

Lemma unseen_step p fetch zeros e s s' r i : inv s -> exec p fetch zeros e s = Some (s', r) -> unseen i (s_handles s) ->
  unseen i (s_handles s') \/ failed_on i (s_handles s') \/
  exists k h, e = EFill k /\ nth_error (s_handles s) k = Some h /\ h_index h = i /\ s_handles s' = upd (s_handles s) k (with_phase h Open).
Proof.
  intros I E [U1 U2]. pose proof (exec_hstep _ _ _ _ _ _ _ I E) as S.
  assert (Ap : forall h, h_phase h <> Open -> (h_index h = i -> h_phase h = Filling \/ 0 < count i (s_handles s)) -> unseen i (s_handles s ++ [h])).
  { intros h N C. split.
    - intros h' H X. apply in_app_or in H as [H|[<-|[]]]; auto.
    - destruct U2 as [U2|[f F]].
      + destruct (Nat.eq_dec (h_index h) i) as [Ei|Ei].
        * destruct (C Ei); [right; exists h; split; [apply in_or_app; cbn; auto|auto]|lia].
        * left. rewrite count_app, U2. cbn. replace (h_index h =? i) with false by lia. rewrite andb_false_r. reflexivity.
      + right. exists f. split; [apply in_or_app; tauto|tauto]. }
  assert (Up : forall k h ph, nth_error (s_handles s) k = Some h -> ph <> Open \/ h_index h <> i ->
               h_phase h <> Filling \/ h_index h <> i -> (counted h = false -> counted (with_phase h ph) = false) ->
               unseen i (upd (s_handles s) k (with_phase h ph))).
  { intros k h ph K N NF C. assert (Lk : k < length (s_handles s)) by (apply nth_error_Some; congruence). split.
    - intros h' H X. apply in_upd in H as [->|[j [J1 J2]]]; [|eauto using nth_error_In|exact Lk].
      cbn in X |- *. tauto.
    - destruct U2 as [U2|[f (F1 & F2 & F3)]].
      + left. pose proof (count_upd i _ k h (with_phase h ph) K) as Q. cbn [h_index with_phase] in Q.
        destruct (counted h); [destruct (counted (with_phase h ph)), (h_index h =? i); cbn [andb] in Q; lia|].
        rewrite C in Q by reflexivity. cbn [andb] in Q. lia.
      + right. exists f. split; [|auto]. eapply in_upd_other; eauto. intros ->. intuition congruence. }
  inversion S as [Q|h P C Q|h P Q|h P C Q|k h Ee K P Q|k h K P Q|k h K P G Q|k h K P Q|k h K P Q|k h K P Q].
  - left. split; assumption.
  - left. apply Ap; [congruence|auto].
  - destruct (Nat.eq_dec (h_index h) i) as [Ei|Ei].
    + right; left. exists h. split; [apply in_or_app; cbn; auto|auto].
    + left. apply Ap; [congruence|contradiction].
  - left. apply Ap; [congruence|]. intros <-. now right.
  - destruct (Nat.eq_dec (h_index h) i) as [Ei|Ei].
    + right; right. exists k, h. auto.
    + left. apply Up; auto. unfold counted. cbn. now rewrite P.
  - destruct (Nat.eq_dec (h_index h) i) as [Ei|Ei].
    + right; left. exists (with_phase h Failed). split; [|auto].
      apply nth_error_In with (n := k). rewrite nth_upd by (apply nth_error_Some; congruence). now rewrite Nat.eqb_refl.
    + left. apply Up; auto. unfold counted. now rewrite P.
  - destruct (Nat.eq_dec (h_index h) i) as [Ei|Ei].
    + exfalso. assert (Ch : counted h = true) by (unfold counted; now rewrite P).
      pose proof (count_pos i _ h (nth_error_In _ _ K) Ch Ei). destruct U2 as [U2|[f (F1 & F2 & F3)]]; [lia|].
      assert (Cf : counted f = true) by (unfold counted; now rewrite F3).
      apply (G f F1); [|unfold guard_of; now rewrite F3].
      eapply same_lock; eauto using nth_error_In. congruence.
    + left. apply Up; auto. unfold counted. now rewrite P.
  - left. apply Up; [exact K|left; discriminate|left; destruct P; congruence|unfold counted; destruct P as [P|P]; rewrite P; discriminate].
  - left. apply Up; [exact K|left; discriminate|left; congruence|reflexivity].
  - left. apply Up; [exact K|left; discriminate|left; congruence|reflexivity].
Qed.

Lemma list_ext {A} (l l' : list A) : (forall j, nth_error l j = nth_error l' j) -> l = l'.
Proof.
  revert l'. induction l as [|x l IH]; intros [|x' l'] H; [reflexivity|specialize (H 0); discriminate..|].
  pose proof (H 0) as H0. injection H0 as <-. f_equal. apply IH. intros j. exact (H (S j)).
Qed.

Lemma upd_upd_same {A} (l : list A) i a b : i < length l -> upd (upd l i a) i b = upd l i b.
Proof.
  intros L. apply list_ext. intros j. rewrite !nth_upd by (rewrite ?upd_length; exact L). destruct (j =? i); reflexivity.
Qed.

Lemma upd_upd_comm {A} (l : list A) i j a b : i < length l -> j < length l -> i <> j -> upd (upd l i a) j b = upd (upd l j b) i a.
Proof.
  intros L L' N. apply list_ext. intros n. rewrite !nth_upd by (rewrite ?upd_length; assumption).
  destruct (Nat.eqb_spec n j), (Nat.eqb_spec n i); congruence.
Qed.

Lemma upd_self {A} (l : list A) i : i < length l -> exists a, upd l i a = l.
Proof.
  intros L. destruct (nth_error l i) as [a|] eqn:E; [|apply nth_error_None in E; lia]. exists a. apply list_ext. intros j.
  rewrite nth_upd by exact L. destruct (Nat.eqb_spec j i) as [->|]; congruence.
Qed.

Lemma run_unseen p fetch zeros i es : forall s pg s1 rs, inv s ->
  run p fetch zeros es s = Some (s1, rs) -> p = Debug \/ (Z.of_nat (length (s_handles s1)) < 2 ^ 32)%Z -> i < length (s_pages s) ->
  upd (s_pages s) i pg = s_pages s \/ failed_on i (s_handles s) \/ unseen i (s_handles s) ->
  exists pg1, run p fetch zeros es (with_pages s (upd (s_pages s) i pg)) = Some (with_pages s1 (upd (s_pages s1) i pg1), rs) /\
    i < length (s_pages s1) /\
    (upd (s_pages s1) i pg1 = s_pages s1 \/ failed_on i (s_handles s1) \/ unseen i (s_handles s1)).
Proof.
  induction es as [|e es IH]; intros s pg s1 rs I R B Li J.
  - cbn in R |- *. injection R as <- <-. exists pg. auto.
  - cbn in R |- *. destruct (exec p fetch zeros e s) as [[s2 r]|] eqn:E; [|discriminate].
    destruct (run p fetch zeros es s2) as [[s3 rs3]|] eqn:R2; [|discriminate]. injection R as <- <-.
    pose proof (run_grow _ _ _ _ _ _ _ R2) as Gr.
    assert (I2 : inv s2). { apply (exec_inv p fetch zeros e s s2 r); auto. destruct B; [now left|right; lia]. }
    assert (Hi : forall k h, nth_error (s_handles s) k = Some h -> h_index h < length (s_pages s)).
    { intros k h K. rewrite (iv_pages s I). now destruct (iv_handles s I h (nth_error_In _ _ K)). }
    assert (Li2 : i < length (s_pages s2)).
    { destruct (page_step _ _ _ _ _ _ _ E) as [(P1 & _)|[k [h [pg2 (K & P0 & P1 & P2)]]]]; rewrite P1; [exact Li|].
      rewrite upd_length; [exact Li|eapply Hi; eauto]. }
    assert (Ht : exists pg2, exec p fetch zeros e (with_pages s (upd (s_pages s) i pg)) = Some (with_pages s2 (upd (s_pages s2) i pg2), r) /\
              (upd (s_pages s2) i pg2 = s_pages s2 \/ failed_on i (s_handles s2) \/ unseen i (s_handles s2))).
    { destruct J as [J|J].
      { rewrite J, with_pages_same. destruct (upd_self (s_pages s2) i Li2) as [pg2 X].
        exists pg2. rewrite X, with_pages_same. auto. }
      destruct (page_step _ _ _ _ _ _ _ E) as [(P1 & P2 & P3)|[k [h [pg2 (K & P0 & P1 & P2)]]]].
      - exists pg. rewrite P2, P1. split; [reflexivity|right]. destruct J as [J|J].
        + left. eapply failed_persists; [exact (exec_hstep _ _ _ _ _ _ _ I E)|exact J].
        + destruct (unseen_step _ _ _ _ _ _ _ _ I E J) as [X|[X|[k [h (Ee & K & Ei & Hs)]]]]; auto.
          exfalso. destruct (P3 k Ee) as [h2 [K2 Hs2]]. assert (h2 = h) by congruence. subst h2. rewrite Hs in Hs2.
          assert (Lk : k < length (s_handles s)) by (apply nth_error_Some; congruence).
          apply (f_equal (fun l => nth_error l k)) in Hs2. rewrite !nth_upd in Hs2 by exact Lk. rewrite Nat.eqb_refl in Hs2. discriminate.
      - rewrite P2. destruct (Nat.eq_dec (h_index h) i) as [Ei|Ei].
        + exists pg2. rewrite P1, Ei, !upd_upd_same by exact Li. auto.
        + exists pg. rewrite P1, upd_upd_comm by (eauto; congruence). split; [reflexivity|right]. destruct J as [J|J].
          * left. eapply failed_persists; [exact (exec_hstep _ _ _ _ _ _ _ I E)|exact J].
          * destruct (unseen_step _ _ _ _ _ _ _ _ I E J) as [X|[X|[k2 [h2 (Ee & K2 & Ei2 & Hs)]]]]; auto.
            exfalso. rewrite (P0 k2 Ee) in K2. congruence. }
    destruct Ht as [pg2 [E2 J2]]. rewrite E2. destruct (IH s2 pg2 s3 rs3 I2 R2 B Li2 J2) as [pg1 [R3 J3]]. rewrite R3. exists pg1. auto.
Qed.

Lemma unused_unseen s i : inv s -> access_of (s_map s) i = None -> unseen i (s_handles s).
Proof.
  intros I A. pose proof (iv_count s I i) as D. rewrite A in D. split; [|now left].
  intros h Hh Hi Ho. apply (proj1 (count_zero i _) D h Hh); [unfold counted; now rewrite Ho|exact Hi].
Qed.

Lemma old_content p fetch zeros s i pg es s1 rs : inv s -> i < length (s_pages s) ->
  access_of (s_map s) i = None -> run p fetch zeros es s = Some (s1, rs) ->
  p = Debug \/ (Z.of_nat (length (s_handles s1)) < 2 ^ 32)%Z ->
  exists s2, run p fetch zeros es (with_pages s (upd (s_pages s) i pg)) = Some (s2, rs) /\
    s_map s2 = s_map s1 /\ s_handles s2 = s_handles s1 /\
    (forall j, j <> i -> nth_error (s_pages s2) j = nth_error (s_pages s1) j) /\
    ((exists h, In h (s_handles s1) /\ h_index h = i /\ h_phase h = Open) ->
     (forall h, In h (s_handles s1) -> h_index h = i -> h_phase h <> Failed) -> s2 = s1).
Proof.
  intros I Li A R B.
  destruct (run_unseen p fetch zeros i es s pg s1 rs I R B Li) as [pg1 [R1 [L J]]]; [right; right; now apply unused_unseen|].
  assert (I1 : inv s1) by (eapply run_inv; eauto).
  eexists. split; [exact R1|]. split; [reflexivity|]. split; [reflexivity|]. split.
  - intros j N. cbn [s_pages with_pages]. rewrite nth_upd by exact L. replace (j =? i) with false by lia. reflexivity.
  - intros [h (H1 & H2 & H3)] NF. destruct J as [J|[[f (F1 & F2 & F3)]|[U _]]].
    + rewrite J. apply with_pages_same.
    + now elim (NF f F1 F2).
    + now elim (U h H1 H2).
Qed.

(** ** Panics *)

Lemma may_not_write hs l : may_write hs l = false -> exists h, In h hs /\ h_lock h = l /\ guard_of h <> NoGuard.
Proof.
  induction hs as [|h hs IH]; cbn [may_write forallb]; [discriminate|]. intros Q. apply andb_false_iff in Q as [Q|Q].
  - exists h. split; [now left|]. destruct (guard_of h); [discriminate|..]; (split; [|discriminate]);
      now destruct (Nat.eqb_spec (h_lock h) l).
  - destruct (IH Q) as [h' [A B]]. exists h'. split; [now right|exact B].
Qed.

Lemma start_access_panics s m md loc i s' pn : inv s -> p_locks m = p_locks (s_map s) ->
  start_access s m md loc i = (s', Some pn) ->
  pn = LockHeld /\ exists l rest h, p_locks (s_map s) = l :: rest /\ In h (s_handles s) /\ h_lock h = l /\ h_phase h = Closing.
Proof.
  intros I El E. unfold start_access, alloc_lock in E. rewrite El in E.
  pose proof (may_not_write (s_handles s)) as G.
  destruct (p_locks (s_map s)) as [|l rest] eqn:Pl.
  - destruct (may_write (s_handles s) (s_fresh s)) eqn:Mw; [discriminate|]. destruct (G _ Mw) as [h (H1 & H2 & _)].
    destruct (iv_handles s I h H1) as (_ & Hl & _). lia.
  - destruct (may_write (s_handles s) l) eqn:Mw; [discriminate|]. injection E as _ <-. split; [reflexivity|].
    destruct (G _ Mw) as [h (H1 & H2 & H3)]. exists l, rest, h. split; [reflexivity|]. split; [exact H1|]. split; [exact H2|].
    assert (Cl : counted h = false).
    { destruct (counted h) eqn:C; [|reflexivity]. exfalso. pose proof (count_pos (h_index h) _ h H1 C eq_refl).
      pose proof (iv_count s I (h_index h)) as D. destruct (access_of (s_map s) (h_index h)) as [[l' c]|]; [|lia].
      destruct D as (_ & _ & _ & D4 & D5). apply D4. rewrite <- (D5 h H1 C eq_refl), H2, Pl. now left. }
    unfold counted in Cl. unfold guard_of in H3. destruct (h_phase h); try discriminate; [reflexivity|now elim H3].
Qed.

Lemma exec_panics p fetch zeros e s s' pn : inv s -> exec p fetch zeros e s = Some (s', Some pn) ->
  match pn with
  | BufferInUse => exists md loc i a, e = EAccess md loc /\ mapped_at (s_map s) loc = None /\
      h_tail (p_available (s_map s)) = Z.of_nat i /\ access_of (s_map s) i = Some a /\
      mapped_at (s_map s') loc = Some i /\ s_handles s' = s_handles s
  | LockHeld => exists md loc l rest h, e = EAccess md loc /\ p_locks (s_map s) = l :: rest /\
      In h (s_handles s) /\ h_lock h = l /\ h_phase h = Closing
  | TooManyHandles => exists md loc i, p = Debug /\ e = EAccess md loc /\ mapped_at (s_map s) loc = Some i /\
      (2 ^ 32 <= Z.of_nat (count i (s_handles s)) + 1)%Z
  | FetchFailed => exists k h, e = EFill k /\ nth_error (s_handles s) k = Some h /\ h_mode h <> Initialize /\
      fetch (h_loc h) = None
  | ListBroken | NoAccess => False
  end.
Proof.
  intros I E. destruct e as [md loc|k|k|k pg|k|k|k]; cbn [exec] in E.
  - assert (Sa : forall m i, p_locks m = p_locks (s_map s) -> start_access s m md loc i = (s', Some pn) ->
        match pn with LockHeld => exists md0 loc0 l rest h, EAccess md loc = EAccess md0 loc0 /\ p_locks (s_map s) = l :: rest /\
      In h (s_handles s) /\ h_lock h = l /\ h_phase h = Closing | _ => False end).
    { intros m i El Es. destruct (start_access_panics _ _ _ _ _ _ _ I El Es) as [-> [l [rest [h H]]]].
      exists md, loc, l, rest, h. split; [reflexivity|exact H]. }
    destruct (mapped_at (s_map s) loc) as [i|] eqn:Mp.
    + unfold buffer_access in E. rewrite Mp in E. pose proof (iv_count s I i) as D.
      destruct (access_of (s_map s) i) as [[l n]|] eqn:Ac.
      * destruct D as (D1 & D2 & _). destruct (wadd p 32 n 1) eqn:W; [discriminate| |]; injection E as _ <-; exists md, loc, i;
          unfold wadd in W; destruct (Z.ltb_spec (n + 1) (2 ^ 32)); try discriminate; destruct p; try discriminate.
        split; [reflexivity|]. split; [reflexivity|]. split; [exact Mp|].
        lia.
      * injection E as E. specialize (Sa _ _ eq_refl E). destruct pn; tauto.
    + destruct (access_unmapped p s md loc I Mp) as [i [s1 (Li & Ti & I1 & P1 & H1 & F1 & B1 & L1 & M1 & Eb)]]. rewrite Eb in E.
      destruct (access_of (s_map s) i) as [a|] eqn:Ac.
      * injection E as <- <-. exists md, loc, i, a. rewrite M1, Z.eqb_refl. auto 10.
      * injection E as E. specialize (Sa _ _ L1 E). destruct pn; tauto.
  - destruct (nth_error (s_handles s) k) as [h|] eqn:K; [|discriminate]. destruct (h_phase h) eqn:Ph; try discriminate.
    injection E as E. unfold fill in E. destruct (h_mode h) eqn:Md; [..|discriminate];
      (destruct (fetch (h_loc h)) eqn:Fe; [discriminate|]); injection E as _ <-; exists k, h; rewrite Md; (split; [auto|]; split; [auto|]; split; [discriminate|auto]).
  - destruct (nth_error (s_handles s) k) as [h|] eqn:K; [|discriminate]. destruct (h_phase h) eqn:Ph; try discriminate.
    destruct (match h_mode h with ReadOnly => _ | _ => _ end); discriminate.
  - destruct (nth_error (s_handles s) k) as [h|] eqn:K; [|discriminate].
    destruct (h_phase h), (h_mode h); try discriminate; destruct (length pg =? length zeros); discriminate.
  - destruct (nth_error (s_handles s) k) as [h|] eqn:K; [|discriminate]. destruct (h_phase h) eqn:Ph; try discriminate.
    destruct (inv_release s k h I K Ph) as [s1 (E1 & _)]. rewrite E1 in E. discriminate.
  - destruct (nth_error (s_handles s) k) as [h|] eqn:K; [|discriminate]. destruct (h_phase h) eqn:Ph; discriminate.
  - destruct (nth_error (s_handles s) k) as [h|] eqn:K; [|discriminate]. destruct (h_phase h) eqn:Ph; discriminate.
Qed.

(** ** Waiting *)

Lemma access_returns p fetch zeros s md loc : inv s -> exists s' r, exec p fetch zeros (EAccess md loc) s = Some (s', r).
Proof.
  intros I. cbn [exec]. destruct (mapped_at (s_map s) loc) as [i|] eqn:Mp.
  - unfold buffer_access. rewrite Mp. destruct (access_of (s_map s) i) as [[l n]|].
    + destruct (wadd p 32 n 1); eauto.
    + destruct (start_access s (s_map s) md loc i) as [s' r]. eauto.
  - destruct (access_unmapped p s md loc I Mp) as [i [s1 (_ & _ & _ & _ & _ & _ & _ & _ & _ & Eb)]]. rewrite Eb.
    destruct (access_of (s_map s) i); [eauto|]. destruct (start_access s (s_map s1) md loc i) as [s' r]. eauto.
Qed.

Lemma exhausted p fetch zeros s md loc : inv s -> mapped_at (s_map s) loc = None ->
  (forall i, i < length (p_buffers (s_map s)) -> access_of (s_map s) i <> None) ->
  exists s' i, exec p fetch zeros (EAccess md loc) s = Some (s', Some BufferInUse) /\
    i < length (p_buffers (s_map s)) /\ mapped_at (s_map s') loc = Some i /\ s_handles s' = s_handles s.
Proof.
  intros I Mp Al. cbn [exec].
  destruct (access_unmapped p s md loc I Mp) as [i [s1 (Li & _ & _ & _ & H1 & _ & _ & _ & M1 & Eb)]].
  specialize (Al i Li). destruct (access_of (s_map s) i); [|now elim Al]. exists s1, i. split; [exact Eb|].
  split; [exact Li|]. rewrite M1, Z.eqb_refl. auto.
Qed.

Lemma waiting_progress p fetch zeros s k h : inv s -> nth_error (s_handles s) k = Some h -> h_phase h = Waiting ->
  (exists s', exec p fetch zeros (EAcquire k) s = Some (s', None)) \/
  exists k2 h2, k2 <> k /\ nth_error (s_handles s) k2 = Some h2 /\ h_lock h2 = h_lock h /\
    ((h_phase h2 = Filling /\ exists s' r, exec p fetch zeros (EFill k2) s = Some (s', r)) \/
     (h_phase h2 = Open /\ exists s', exec p fetch zeros (ERelease k2) s = Some (s', None)) \/
     (h_phase h2 = Closing /\ exists s', exec p fetch zeros (EDropGuard k2) s = Some (s', None))).
Proof.
  intros I K Ph.
  assert (G : (match h_mode h with ReadOnly => may_read (s_handles s) (h_lock h) | _ => may_write (s_handles s) (h_lock h) end) = true
           \/ may_write (s_handles s) (h_lock h) = false).
  { destruct (may_write (s_handles s) (h_lock h)) eqn:W; [left|now right]. destruct (h_mode h); auto.
    apply may_read_spec. intros h2 I2 L. rewrite (proj1 (may_write_spec _ _) W h2 I2 L). discriminate. }
  destruct G as [G|G].
  - left. cbn [exec]. rewrite K, Ph, G. eauto.
  - right. destruct (may_not_write _ _ G) as [h2 (I2 & L & Gd)]. apply In_nth_error in I2 as [k2 K2]. exists k2, h2.
    split; [intros ->; assert (h2 = h) by congruence; subst h2; unfold guard_of in Gd; rewrite Ph in Gd; now elim Gd|].
    split; [exact K2|]. split; [exact L|].
    unfold guard_of in Gd. destruct (h_phase h2) eqn:Ph2; try (now elim Gd).
    + left. split; [reflexivity|]. cbn [exec]. rewrite K2, Ph2. destruct (fill fetch zeros s k2 h2). eauto.
    + right; left. split; [reflexivity|]. eapply release_succeeds; eauto.
    + right; right. split; [reflexivity|]. cbn [exec]. rewrite K2, Ph2. eauto.
Qed.

(** ** First access *)

Lemma first_access p fetch zeros s md loc i s1 : inv s -> mapped_at (s_map s) loc = Some i -> access_of (s_map s) i = None ->
  exec p fetch zeros (EAccess md loc) s = Some (s1, None) ->
  exec p fetch zeros (EAcquire (length (s_handles s))) s1 = None /\
  exists s2 r, exec p fetch zeros (EFill (length (s_handles s))) s1 = Some (s2, r) /\
    match md, fetch loc with
    | Initialize, _ => r = None /\ nth_error (s_pages s2) i = Some zeros
    | _, Some pg => r = None /\ nth_error (s_pages s2) i = Some pg
    | _, None => r = Some FetchFailed /\ nth_error (s_pages s2) i = nth_error (s_pages s) i
    end.
Proof.
  intros I Mp Ac E. cbn [exec] in E. unfold buffer_access in E. rewrite Mp, Ac in E. injection E as E. unfold start_access in E.
  destruct (alloc_lock (s_map s) (s_fresh s)) as [[l rest] fr]. destruct (may_write (s_handles s) l); [|discriminate]. injection E as <-.
  assert (Li : i < length (s_pages s)) by (rewrite (iv_pages s I); eapply iv_mapped; eauto).
  assert (N : forall x, nth_error (s_handles s ++ [x]) (length (s_handles s)) = Some x).
  { intros x. rewrite nth_error_app2, Nat.sub_diag by lia. reflexivity. }
  cbn [exec add_handle s_handles]. rewrite N. cbn [h_phase]. split; [reflexivity|].
  unfold fill. cbn [h_mode h_loc h_index s_pages add_handle].
  destruct md; [destruct (fetch loc) as [pg|] eqn:F; eexists _, _; (split; [reflexivity|])..|eexists _, _; split; [reflexivity|]];
    cbn [s_pages set_phase add_handle]; (split; [reflexivity|]); rewrite ?nth_upd by exact Li; rewrite ?Nat.eqb_refl; reflexivity.
Qed.

Lemma same_buffer s h1 h2 : inv s -> In h1 (s_handles s) -> In h2 (s_handles s) -> h_loc h1 = h_loc h2 ->
  h_index h1 = h_index h2 /\ h_index h1 < length (s_pages s).
Proof.
  intros I I1 I2 E. destruct (iv_handles s I h1 I1) as (A & _ & B), (iv_handles s I h2 I2) as (_ & _ & B').
  rewrite (iv_pages s I). split; [congruence|exact A].
Qed.
