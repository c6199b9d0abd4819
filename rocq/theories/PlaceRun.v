(** * The machine that asks for tokens does what the one with the list does *)

From Verif Require Import Base StrModel Utf8Model JsonModel LexModel LexSpec LexProofs LrModel LrProofs LrViable SqlParseModel PlaceModel PlaceSpec PlaceProofs.
Local Open Scope nat_scope.

Notation toks := (map (fun t : placed => snd (fst t))).

Lemma drive_more V shift build tb f : forall f' st vs l o, drive V shift build tb f st vs l = Some o -> f <= f' -> drive V shift build tb f' st vs l = Some o.
Proof.
  induction f as [|f IH]; intros f' st vs l o E L; [discriminate|]. destruct f' as [|f']; [lia|]. cbn [drive] in *.
  destruct st as [|s st]; [exact E|]. destruct l as [|t l].
  - destruct (eof_action tb s) as [[s'|p|]| |]; try exact E. destruct (final tb p); [exact E|].
    destruct (reduce V build tb p (s :: st) vs) as [[st' vs']| |]; try exact E. apply (IH f' _ _ _ _ E). lia.
  - destruct (action tb s (fst t)) as [[s'|p|]| |]; try exact E.
    + apply (IH f' _ _ _ _ E). lia.
    + destruct (final tb p); [exact E|]. destruct (reduce V build tb p (s :: st) vs) as [[st' vs']| |]; try exact E. apply (IH f' _ _ _ _ E). lia.
Qed.

Section Run.
Variable V : Type.
Variable shift : LrModel.token -> V.
Variable build : nat -> list V -> outcome V.
Variable tb : tables.
Variable ps : list pattern.
Variable n : nat.
Variable term : nat -> nat.
Variable index : nat -> option nat.
Hypothesis Index : forall i, i < n -> index i = Some (term i).

Notation drive := (drive V shift build tb).
Notation drive_before := (drive_before V shift build tb).
Notation drive_at := (drive_at V shift build tb ps index).
Notation finish_at := (finish_at V build tb).
Notation stream := (stream ps n term).

(** What the answer [res] has to do with the answer [a] for the whole list. *)
Definition agrees (f : nat) (st : list nat) (vs : list V) (l : list placed) (x : option nat) (last : nat) (a : answer V)
    (res : result V placed_error) : Prop :=
  match res with
  | Ok v => x = None /\ a = Accepted v
  | Err (InvalidTokenP p) => x = Some p /\ drive_before f st vs (toks l) = Some (Ret None)
  | Err (UnrecognizedTokenP (p, t, q) ex) => a = UnrecognizedToken t ex /\ exists l1 l2, l = l1 ++ (p, t, q) :: l2 /\
      drive_before f st vs (toks l1) = Some (Ret None) /\ drive_before f st vs (toks l1 ++ [t]) = Some (Ret (Some (UnrecognizedToken t ex)))
  | Err (UnrecognizedEofP p ex) => x = None /\ a = UnrecognizedEof ex /\ p = fold_left (fun _ (t : placed) => snd t) l last
  | Err (ExtraTokenP (_, t, _)) => a = ExtraToken t
  end.

Lemma finish_agrees f : forall F st vs last a, drive f st vs [] = Some (Ret a) -> f <= F ->
  exists res, finish_at F st vs last = Some (Ret res) /\
    match res with Ok v => a = Accepted v | Err (UnrecognizedEofP p ex) => a = UnrecognizedEof ex /\ p = last | _ => False end.
Proof.
  induction f as [|f IH]; intros F st vs last a E L; [discriminate|]. destruct F as [|F]; [lia|]. cbn [LrModel.drive PlaceModel.finish_at] in *.
  destruct st as [|s st]; [discriminate|]. destruct (eof_action tb s) as [[s'|p|]| |]; try discriminate.
  - injection E as <-. eexists. split; [reflexivity|]. split; reflexivity.
  - destruct (final tb p).
    + destruct vs; [discriminate|]. injection E as <-. eexists. split; [reflexivity|]. reflexivity.
    + destruct (reduce V build tb p (s :: st) vs) as [[st' vs']| |]; try discriminate. apply (IH F _ _ _ _ E). lia.
  - injection E as <-. eexists. split; [reflexivity|]. split; reflexivity.
Qed.

Lemma before_nil f st vs : f <> 0 -> st <> [] -> drive_before f st vs [] = Some (Ret None).
Proof. intros F S. destruct f; [contradiction|]. destruct st; [contradiction|]. reflexivity. Qed.

Lemma run_agrees f :
  (forall F st vs t l x text c last a, stream text c l x -> drive f st vs (snd (fst t) :: toks l) = Some (Ret a) -> 2 * f <= F ->
    last = snd t ->
    exists res, drive_at F st vs (Some t) text c last = Some (Ret res) /\ agrees f st vs (t :: l) x last a res) /\
  (forall F st vs l x text c last a, stream text c l x -> drive f st vs (toks l) = Some (Ret a) -> 2 * f + 1 <= F ->
    exists res, drive_at F st vs None text c last = Some (Ret res) /\ agrees f st vs l x last a res).
Proof.
  induction f as [|f [IHA IHB]]; [split; intros; discriminate|].
  assert (A : forall F st vs t l x text c last a, stream text c l x -> drive (S f) st vs (snd (fst t) :: toks l) = Some (Ret a) -> 2 * S f <= F ->
    last = snd t ->
    exists res, drive_at F st vs (Some t) text c last = Some (Ret res) /\ agrees (S f) st vs (t :: l) x last a res).
  { intros F st vs t l x text c last a S0 E L El. destruct F as [|F]; [lia|]. cbn [LrModel.drive PlaceModel.drive_at] in *.
    destruct st as [|s st]; [discriminate|].
    destruct (action tb s (fst (snd (fst t)))) as [[s'|p|]| |] eqn:Ac; try discriminate.
    - destruct (IHB F _ _ _ _ _ _ last _ S0 E ltac:(lia)) as (res & R & Ag). exists res. split; [exact R|].
      destruct res as [v|[p|[[p t'] q] ex|p ex|[[p t'] q]]]; cbn [agrees] in *; try exact Ag.
      + destruct Ag as [-> D]. split; [reflexivity|]. cbn [map LrModel.drive_before]. rewrite Ac. exact D.
      + destruct Ag as (-> & l1 & l2 & -> & D1 & D2). split; [reflexivity|]. exists (t :: l1), l2. split; [reflexivity|].
        cbn [map app LrModel.drive_before]. rewrite Ac. auto.
      + destruct Ag as (-> & -> & ->). cbn [fold_left]. rewrite El. auto.
    - destruct (final tb p) eqn:Fp.
      { destruct vs; [discriminate|]. injection E as <-. eexists. split; [reflexivity|]. cbn [agrees]. destruct t as [[p0 t] q0]. reflexivity. }
      destruct (reduce V build tb p (s :: st) vs) as [[st' vs']| |] eqn:Re; try discriminate.
      destruct (IHA F _ _ _ _ _ _ _ last _ S0 E ltac:(lia) El) as (res & R & Ag). exists res. split; [exact R|].
      destruct res as [v|[p'|[[p' t'] q] ex|p' ex|[[p' t'] q]]]; cbn [agrees] in *; try exact Ag.
      + destruct Ag as [-> D]. split; [reflexivity|]. cbn [map LrModel.drive_before] in *. rewrite Ac, Fp, Re. exact D.
      + destruct Ag as (-> & l1 & l2 & El1 & D1 & D2). split; [reflexivity|]. exists l1, l2. split; [exact El1|].
        destruct l1 as [|y l1]; cbn [app] in El1; injection El1 as -> El1.
        * split; [reflexivity|]. cbn [map app fst snd LrModel.drive_before] in *. rewrite Ac, Fp, Re. exact D2.
        * cbn [map app LrModel.drive_before] in *. rewrite Ac, Fp, Re. auto.
    - injection E as <-. eexists. split; [reflexivity|]. cbn [agrees]. destruct t as [[p t] q]. split; [reflexivity|]. exists [], l.
      split; [reflexivity|]. cbn [map app fst snd LrModel.drive_before] in *. rewrite Ac. auto. }
  split; [exact A|].
  intros F st vs l x text c last a S0 E L. destruct F as [|F]; [lia|]. cbn [PlaceModel.drive_at].
  destruct st as [|s st]; [discriminate|].
  destruct S0 as [text c Nx|text c p Nx|text c p i w e lft l x Nx I0 S0]; rewrite Nx.
  - cbn [map] in E. destruct (finish_agrees _ F _ _ last _ E ltac:(lia)) as (res & R & Ag). exists res. split; [exact R|].
    destruct res as [v|[p|[[p t'] q] ex|p ex|[[p t'] q]]]; try contradiction; cbn [agrees fold_left]; [auto|]. destruct Ag. auto.
  - eexists. split; [reflexivity|]. cbn [agrees map]. split; reflexivity.
  - rewrite (Index i I0). cbn [map fst snd] in E.
    destruct (A F (s :: st) vs (p, (term i, w), e) l x lft e e a S0 E ltac:(lia) eq_refl) as (res & R & Ag). exists res. split; [exact R|].
    destruct res as [v|[p'|[[p' t'] q] ex|p' ex|[[p' t'] q]]]; cbn [agrees] in *; exact Ag.
Qed.
End Run.

(** ** Errors *)

Section Errors.
Variable ps : list pattern.
Variable W : nat -> str -> Prop.
Variable n : nat.
Variable blank : Z -> bool.
Variable term : nat -> nat.
Variable word : nat -> str -> Prop.
Variable prefer : nat -> nat -> Prop.
Hypothesis Good : forall j p, nth_error ps j = Some p -> good (fst p) (W j).
Hypothesis Count : length ps = S n.
Hypothesis Flags : forall j r sk, nth_error ps j = Some (r, sk) -> sk = (j =? n).
Hypothesis Blank : forall w, W n w <-> Forall (fun c => blank c = true) w.
Hypothesis Full : forall j, j < n -> ~ W j [].
Hypothesis Dark : forall j c w, j < n -> W j (c :: w) -> blank c = false.
Hypothesis Word : forall t w, word t w <-> exists j, j < n /\ t = term j /\ W j w.
Hypothesis Prefer : forall i j w, i < n -> j < i -> W i w -> W j w -> prefer (term i) (term j) /\ ~ prefer (term j) (term i).
Notation reads := (lexes word blank prefer).

Variable V : Type.
Variable shift : LrModel.token -> V.
Variable build : nat -> list V -> outcome V.
Variable tb : tables.
Variable index : nat -> option nat.
Hypothesis Index : forall i, i < n -> index i = Some (term i).
Notation drive := (drive V shift build tb).
Notation drive_before := (drive_before V shift build tb).

Variable k : nat.
Variables begins whole : list LrModel.token -> Prop.
Hypothesis Total : forall s l r, reads s l r -> exists a, drive (k * length l + 2) [0] [] l = Some (Ret a).
Hypothesis Means : forall s l r a, reads s l r -> drive (k * length l + 2) [0] [] l = Some (Ret a) ->
  match a with
  | Accepted _ => whole l
  | UnrecognizedToken t _ => exists l1 l2, l = l1 ++ t :: l2 /\ begins l1 /\ ~ begins (l1 ++ [t])
  | UnrecognizedEof _ => begins l /\ ~ whole l
  | ExtraToken _ => False
  end.
Hypothesis Whole : forall s l r, reads s l r -> whole l -> begins l.
Hypothesis Before : forall l l', begins (l ++ l') -> begins l.

Notation fails := (fails_at word blank prefer begins whole).
Notation parse s := (parse_at V shift build tb ps index (fuel_at k s) s).

Lemma drive_agree f f' l o o' : drive f [0] [] l = Some o -> drive f' [0] [] l = Some o' -> o = o'.
Proof.
  intros E E'. apply (drive_more _ _ _ _ _ (f + f')) in E; [|lia]. apply (drive_more _ _ _ _ _ (f + f')) in E'; [|lia]. congruence.
Qed.

Lemma before_begins f s l r : reads s l r -> drive_before f [0] [] l = Some (Ret None) -> k * length l + 2 <= f -> begins l.
Proof.
  intros R B L. destruct (Total _ _ _ R) as (a & D). pose proof (Means _ _ _ _ R D) as M.
  apply (drive_more _ _ _ _ _ f) in D; [|exact L]. pose proof (drive_before_same _ _ _ _ _ _ _ _ _ _ D B) as Sm.
  destruct a; try contradiction; [exact (Whole _ _ _ R M)|exact (proj1 M)].
Qed.

Lemma before_fails f s l t ex r : reads s (l ++ [t]) r -> begins l ->
  drive_before f [0] [] (l ++ [t]) = Some (Ret (Some (UnrecognizedToken t ex))) -> k * length (l ++ [t]) + 2 <= f -> ~ begins (l ++ [t]).
Proof.
  intros R B D L. destruct (Total _ _ _ R) as (a & Da). pose proof (Means _ _ _ _ R Da) as M.
  apply (drive_more _ _ _ _ _ f) in Da; [|exact L]. pose proof (drive_before_same _ _ _ _ _ _ _ _ _ _ Da D) as [<- _].
  destruct M as (l1 & l2 & E & B1 & N1). destruct l2 as [|y l2 _] using rev_ind.
  - apply app_inj_tail in E as [<- _]. exact N1.
  - exfalso. apply N1. apply (Before _ l2). rewrite app_comm_cons, app_assoc in E. apply app_inj_tail in E as [E _].
    rewrite <- app_assoc. cbn [app]. rewrite <- E. exact B.
Qed.

Lemma toks_length (l : list placed) : length (toks l) = length l.
Proof. apply map_length. Qed.

Theorem errors_at s : exists l x res, stream ps n term s 0 l x /\ length l <= length s /\ parse s = Some (Ret res) /\
  exists a, drive (k * length (toks l) + 2) [0] [] (toks l) = Some (Ret a) /\ agrees V shift build tb (k * length s + 2) [0] [] l x 0 a res /\
  match res with Ok v => True | Err e => fails s e end.
Proof.
  destruct (stream_exists ps W n blank term word prefer Good Count Flags Blank Full Dark Word Prefer (S (length s)) s 0 (le_n _)) as (l & x & St & Ln).
  pose proof (stream_reads ps W n blank term word prefer Good Count Flags Blank Full Dark Word Prefer s 0 l x St) as R.
  assert (R0 : exists r, reads s (toks l) r /\ (x = None -> r = [])).
  { destruct x as [p|]; [|exists []; auto]. destruct R as (b & r & _ & R & _). exists r. split; [exact R|discriminate]. }
  destruct R0 as (r & R0 & Rx). destruct (Total _ _ _ R0) as (a & D).
  assert (Le : forall m, m <= length s -> k * m + 2 <= k * length s + 2) by (intros m L; pose proof (Nat.mul_le_mono_l _ _ k L); lia).
  assert (D' : drive (k * length s + 2) [0] [] (toks l) = Some (Ret a)).
  { apply (drive_more _ _ _ _ _ (k * length s + 2)) in D; [exact D|]. rewrite toks_length. apply Le. exact Ln. }
  destruct (proj2 (run_agrees V shift build tb ps n term index Index (k * length s + 2)) (fuel_at k s) [0] [] l x s 0 0 a St D' (le_n _)) as (res & P & Ag).
  exists l, x, res. split; [exact St|]. split; [exact Ln|]. split; [exact P|]. exists a. split; [exact D|]. split; [exact Ag|].
  destruct res as [v|[p|[[p t] q] ex|p ex|[[p t] q]]]; cbn [agrees fails_at] in *; [exact I|..].
  - destruct Ag as [-> B]. destruct R as (b & r' & E & R & Stk & ->). exists b, r', (toks l). repeat (split; [assumption || reflexivity|]).
    apply (before_begins _ _ _ _ R B). rewrite toks_length. apply Le. exact Ln.
  - destruct Ag as (-> & l1 & l2 & El & B1 & B2). subst l.
    destruct (stream_stands ps W n blank term word prefer Good Count Flags Blank Full Dark Word Prefer l1 s 0 p t q l2 x St) as (before & after & E & Sd & -> & ->).
    exists (toks l1), before, after. rewrite !Nat.add_0_l. repeat (split; [assumption || reflexivity|]). destruct Sd as [S1 S2].
    rewrite E in R0. pose proof (lexes_join _ _ _ _ _ _ _ _ S1 S2) as S3.
    rewrite app_length in Ln. cbn [length] in Ln.
    assert (L1 : @length placed l1 + 1 <= length s) by (refine (Nat.le_trans _ _ _ _ Ln); apply Nat.add_le_mono_l; lia). clear Ln.
    assert (Bg : begins (toks l1)) by (apply (before_begins _ _ _ _ S1 B1); rewrite toks_length; apply Le; lia).
    split; [exact Bg|]. apply (before_fails _ _ _ _ _ _ S3 Bg B2). rewrite app_length, toks_length. cbn [length]. apply Le. lia.
  - destruct Ag as (-> & -> & ->). rewrite (Rx eq_refl) in R0. pose proof (Means _ _ _ _ R0 D) as [M1 M2]. exists (toks l). repeat (split; [assumption|]).
    destruct l as [|[[p t] q] l _] using rev_ind; [left; auto|]. right. rewrite fold_left_app. cbn [fold_left snd].
    destruct (stream_stands ps W n blank term word prefer Good Count Flags Blank Full Dark Word Prefer l s 0 p t q [] None St) as (before & after & E & Sd & -> & ->).
    exists (toks l), t, before, after. rewrite map_app. rewrite !Nat.add_0_l. auto.
  - subst a. exact (Means _ _ _ _ R0 D).
Qed.

(** ** They are determined *)

Lemma first_word (l m : list LrModel.token) t l' u m' : l ++ t :: l' = m ++ u :: m' ->
  begins l -> ~ begins (l ++ [t]) -> begins m -> ~ begins (m ++ [u]) -> l = m /\ t = u.
Proof.
  intros E B N B' N'.
  assert (K : forall (l m : list LrModel.token) t l' u m', l ++ t :: l' = m ++ u :: m' ->
    (l = m /\ t = u) \/ (exists x, m = l ++ t :: x) \/ (exists x, l = m ++ u :: x)).
  { clear. induction l as [|a l IH]; intros [|b m] t l' u m' E; cbn [app] in E; injection E as E1 E2; subst; auto.
    - right. left. exists m. reflexivity.
    - right. right. exists l. reflexivity.
    - destruct (IH m t l' u m' E2) as [[-> ->]|[[x ->]|[x ->]]]; [auto|right; left; exists x; reflexivity|right; right; exists x; reflexivity]. }
  destruct (K l m t l' u m' E) as [Q|[[x ->]|[x ->]]]; [exact Q| |]; exfalso.
  - apply N. apply (Before _ x). rewrite <- app_assoc. exact B'.
  - apply N'. apply (Before _ x). rewrite <- app_assoc. exact B.
Qed.

Definition finished (r : str) : Prop := r = [] \/ stuck word blank r.

Lemma reads_on r : exists l r', reads r l r' /\ finished r'.
Proof.
  destruct (stream_exists ps W n blank term word prefer Good Count Flags Blank Full Dark Word Prefer (S (length r)) r 0 (le_n _)) as (l & x & St & _).
  pose proof (stream_reads ps W n blank term word prefer Good Count Flags Blank Full Dark Word Prefer r 0 l x St) as R. exists (toks l). destruct x as [p|].
  - destruct R as (b & r' & _ & R & Sk & _). exists r'. split; [exact R|right; exact Sk].
  - exists []. split; [exact R|left; reflexivity].
Qed.

Lemma reads_one s l r l' r' : reads s l r -> finished r -> reads s l' r' -> finished r' -> l = l' /\ r = r'.
Proof. intros. eapply (reads_unique ps W n blank term word prefer Good Count Flags Blank Full Dark Word Prefer); eassumption. Qed.

Lemma reads_prefix s l r l0 r' : reads s l r -> reads s l0 r' -> finished r' -> exists l', l0 = l ++ l'.
Proof.
  intros H H' F. destruct (reads_on r) as (l' & r2 & H2 & F2). exists l'. pose proof (lexes_join _ _ _ _ _ _ _ _ H H2) as H3.
  exact (proj1 (reads_one s l0 r' (l ++ l') r2 H' F H3 F2)).
Qed.

Theorem fails_same s e e' : fails s e -> fails s e' -> same_place e e'.
Proof.
  destruct (reads_on s) as (l0 & r0 & R0 & F0).
  assert (Tok : forall p t q ex, fails s (UnrecognizedTokenP (p, t, q) ex) -> exists l l', l0 = l ++ t :: l' /\ begins l /\ ~ begins (l ++ [t])).
  { intros p t q ex (l & before & after & -> & [S1 S2] & _ & _ & B & N). pose proof (lexes_join _ _ _ _ _ _ _ _ S1 S2) as S3.
    destruct (reads_prefix _ _ _ _ _ S3 R0 F0) as (l' & ->). exists l, l'. rewrite <- app_assoc. auto. }
  assert (No : forall p t q ex l1 l2, fails s (UnrecognizedTokenP (p, t, q) ex) -> begins l1 -> l0 = l1 ++ l2 -> l2 = [] -> False).
  { intros p t q ex l1 l2 H B E ->. rewrite app_nil_r in E. subst l1. destruct (Tok _ _ _ _ H) as (l & l' & -> & _ & N). apply N, (Before _ l').
    rewrite <- app_assoc. exact B. }
  assert (Bad : forall p, fails s (InvalidTokenP p) -> exists b, s = b ++ r0 /\ p = bytes_of b /\ begins l0 /\ stuck word blank r0).
  { intros p (before & after & l & E & -> & R & Sk & B). destruct (reads_one _ _ _ _ _ R (or_intror Sk) R0 F0) as [<- <-]. exists before. auto. }
  assert (Eof : forall p ex, fails s (UnrecognizedEofP p ex) -> r0 = [] /\ begins l0 /\ ((l0 = [] /\ p = 0) \/
         exists l t before after, l0 = l ++ [t] /\ s = before ++ snd t ++ after /\ stands word blank prefer l t before after /\
           p = bytes_of (before ++ snd t))).
  { intros p ex (l & R & B & _ & Q). destruct (reads_one _ _ _ _ _ R (or_introl eq_refl) R0 F0) as [<- <-]. auto. }
  intros H H'. destruct e as [p|[[p t] q] ex|p ex|t], e' as [p'|[[p' t'] q'] ex'|p' ex'|t']; try contradiction; cbn [same_place].
  - destruct (Bad _ H) as (b & E & -> & _), (Bad _ H') as (b' & E' & -> & _). rewrite E in E'. apply app_inv_tail in E'. congruence.
  - destruct (Bad _ H) as (_ & _ & _ & B & _). exact (No _ _ _ _ l0 [] H' B (eq_sym (app_nil_r _)) eq_refl).
  - destruct (Bad _ H) as (_ & _ & _ & _ & Sk), (Eof _ _ H') as (-> & _). exact Sk.
  - destruct (Bad _ H') as (_ & _ & _ & B & _). exact (No _ _ _ _ l0 [] H B (eq_sym (app_nil_r _)) eq_refl).
  - assert (Q : exists l, (exists before after, s = before ++ snd t ++ after /\ stands word blank prefer l t before after /\ p = bytes_of before /\ q = bytes_of (before ++ snd t)) /\
      exists l', l0 = l ++ t :: l' /\ begins l /\ ~ begins (l ++ [t])).
    { destruct H as (l & before & after & E & Sd & P1 & P2 & B & N). exists l. split; [exists before, after; auto|]. destruct Sd as [S1 S2].
      pose proof (lexes_join _ _ _ _ _ _ _ _ S1 S2) as S3. rewrite <- E in S3. destruct (reads_prefix _ _ _ _ _ S3 R0 F0) as (l' & ->). exists l'.
      rewrite <- app_assoc. auto. }
    assert (Q' : exists l, (exists before after, s = before ++ snd t' ++ after /\ stands word blank prefer l t' before after /\ p' = bytes_of before /\ q' = bytes_of (before ++ snd t')) /\
      exists l', l0 = l ++ t' :: l' /\ begins l /\ ~ begins (l ++ [t'])).
    { destruct H' as (l & before & after & E & Sd & P1 & P2 & B & N). exists l. split; [exists before, after; auto|]. destruct Sd as [S1 S2].
      pose proof (lexes_join _ _ _ _ _ _ _ _ S1 S2) as S3. rewrite <- E in S3. destruct (reads_prefix _ _ _ _ _ S3 R0 F0) as (l' & ->). exists l'.
      rewrite <- app_assoc. auto. }
    destruct Q as (l & (b & a & E & Sd & -> & ->) & l2 & El & B & N), Q' as (m & (b' & a' & E' & Sd' & -> & ->) & m2 & Em & B' & N').
    rewrite El in Em. destruct (first_word _ _ _ _ _ _ Em B N B' N') as [<- <-]. rewrite E in E'.
    destruct (stands_same ps W n blank term word prefer Good Count Flags Blank Full Dark Word Prefer _ _ _ _ _ _ E' Sd Sd') as [<- <-]. reflexivity.
  - destruct (Eof _ _ H') as (_ & B & _). exact (No _ _ _ _ l0 [] H B (eq_sym (app_nil_r _)) eq_refl).
  - destruct (Bad _ H') as (_ & _ & _ & _ & Sk), (Eof _ _ H) as (-> & _). exact Sk.
  - destruct (Eof _ _ H) as (_ & B & _). exact (No _ _ _ _ l0 [] H' B (eq_sym (app_nil_r _)) eq_refl).
  - destruct (Eof _ _ H) as (_ & _ & [[El ->]|(l & t & b & a & El & E & Sd & ->)]), (Eof _ _ H') as (_ & _ & [[El' ->]|(l' & t' & b' & a' & El' & E' & Sd' & ->)]).
    + reflexivity.
    + rewrite El in El'. destruct l'; discriminate.
    + rewrite El in El'. destruct l; discriminate.
    + rewrite El in El'. apply app_inj_tail in El' as [<- <-]. rewrite E in E'.
      destruct (stands_same ps W n blank term word prefer Good Count Flags Blank Full Dark Word Prefer _ _ _ _ _ _ E' Sd Sd') as [<- <-]. reflexivity.
Qed.
End Errors.
