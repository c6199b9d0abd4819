(** * The error messages of validation in a database *)

From Coq Require Import Strings.String.
From Verif Require Import Base StrModel SqlNameModel SqlModel SqlSpec SqlSafeSpec SqlPanic SqlStmtSpec SqlColumnsSpec SqlRules SqlRulesBase
  SqlRulesNames SqlRulesTop SqlFrom SqlExamples SqlMessageModel SqlBlame SqlMessageDrop SqlMessageBase SqlMessageStmt.
Local Open Scope list_scope.

Section Top.
Context (up : Z -> list Z) (db : database) (dflt : name) (W : well_named up db).
Notation x := (set_context_new up db dflt).
Notation table := (catalog up db dflt).
Notation no_table := (uncatalogued up db dflt).
Notation has_default := (has_default up db dflt).

Lemma blame_sound s c : validate_say up x s = merr c -> sql_wrong up table no_table s c.
Proof.
  apply (sql_say up x False (fun f => False_ind _ f) table (tables_ok up db dflt W) no_table (fun q c => catalog_wrong up db dflt q c W) s c).
Qed.

Lemma blame_exact s c : has_default -> safe_sql s = true -> (validate_say up x s = merr c <-> sql_wrong up table no_table s c).
Proof.
  intros D Hs. split; [apply blame_sound|].
  apply (sql_say up x has_default (default_registered up db dflt) table (tables_ok up db dflt W) no_table
    (fun q c => catalog_wrong up db dflt q c W) s c); assumption.
Qed.

Lemma blame_one s c c' : has_default -> safe_sql s = true ->
  sql_wrong up table no_table s c -> sql_wrong up table no_table s c' -> c = c'.
Proof. intros D Hs H H'. apply blame_exact in H, H'; [|assumption..]. rewrite H in H'. injection H' as <-. reflexivity. Qed.

Lemma blame_some s : has_default -> safe_sql s = true -> (~ sql_typed up table s <-> exists c, sql_wrong up table no_table s c).
Proof.
  intros D Hs. rewrite <- (sql_refused up db dflt W s D Hs), <- validate_drop. split.
  - intros H. apply err_drop in H as [c H]. exists c. apply (blame_exact s c D Hs). exact H.
  - intros [c H]. apply (drop_err _ c). apply (blame_exact s c D Hs). exact H.
Qed.

End Top.

(** ** The texts *)

(** No name in the message has an apostrophe in it. *)
Definition names_of (c : complaint) : list name :=
  match c with
  | CDuplicateRelation n | CUndefined n | CAmbiguous n | CIsRelation n | CNotRelation n | CDuplicateCommon n | CNoTable n
  | CNoSchema n | CUndefinedCollection n | CRangeVariable n | CColumnUndefined n _ | CMissing n | CAssignedTwice n
  | CAssignUndefined n | CAssignIncompatible n | CColumnNotFound n => [n]
  | CNoAttribute n r => [n; r]
  | CCannotAssign v n => [v; n]
  | _ => []
  end.

Definition unquoted (c : complaint) : Prop := Forall (fun n => ~ In 39%Z n) (names_of c).

Lemma split_quote (n n' r r' : list Z) : ~ In 39%Z n -> ~ In 39%Z n' -> n ++ 39%Z :: r = n' ++ 39%Z :: r' -> n = n' /\ r = r'.
Proof.
  revert n'. induction n as [|a n IH]; intros [|b n'] H H' E; cbn in *.
  - injection E as ->. auto.
  - injection E as <- _. tauto.
  - injection E as -> _. tauto.
  - injection E as -> E. apply IH in E as [-> ->]; auto.
Qed.

Lemma message_one debug c c' : (forall q q', debug q = debug q' -> q = q') -> unquoted c -> unquoted c' ->
  message debug c = message debug c' -> c = c'.
Proof.
  intros Hd U U' E. unfold unquoted in U, U'.
  destruct c; vm_compute in E.
  all: destruct c'.
  all: try reflexivity.
  all: vm_compute in E.
  all: try discriminate E.
  all: cbn [names_of] in U, U'.
  all: repeat match goal with H : Forall _ (_ :: _) |- _ => inversion H; clear H; subst | H : Forall _ [] |- _ => clear H end.
  all: repeat match type of E with _ :: _ = _ :: _ => injection E as E end.
  all: fold (@app Z) in E.
  all: try (match type of E with ?n ++ 39%Z :: _ = ?n' ++ 39%Z :: _ => apply split_quote in E as [-> E]; [|assumption..] end).
  all: try discriminate E.
  all: try reflexivity.
  all: repeat match type of E with _ :: _ = _ :: _ => injection E as E end.
  all: try (apply app_inv_tail in E; try apply Hd in E; subst; reflexivity).
  all: try (subst; reflexivity).
  - exfalso. apply (f_equal (@rev Z)) in E. rewrite rev_app_distr in E. discriminate E.
  - exfalso. apply (f_equal (@rev Z)) in E. rewrite rev_app_distr in E. discriminate E.
  - destruct n0 as [|a n0]; [discriminate E|]. injection E as <- _. exfalso. match goal with H : ~ In _ (_ :: _) |- _ => apply H; left; reflexivity end.
  - destruct n as [|a n]; [discriminate E|]. injection E as -> _. exfalso. match goal with H : ~ In _ (_ :: _) |- _ => apply H; left; reflexivity end.
Qed.

(** ** The misleading message *)

(** [INSERT INTO t (id, id) VALUES (1, 2)] *)
Definition twice_insert : sql_statement := SqlStatement (StInsert {|
  i_table := [lit "t"]; i_columns := Some [lit "id"; lit "id"]; i_source := SValues [[sx_num "1"; sx_num "2"]] |}).

Lemma misleading : exists up db dflt s n q attrs a, well_named up db /\
  validate_say up (set_context_new up db dflt) s = merr (CColumnUndefined n q) /\
  catalog up db dflt q attrs /\ column_of up attrs n a.
Proof.
  exists sx_up, sx_db, (lit "main"), twice_insert, (lit "id"), [lit "t"], sx_t, (sx_col "id" DNumeric false).
  split; [repeat constructor|]. split; [vm_compute; reflexivity|]. split.
  - apply (tables_ok sx_up sx_db (lit "main")); [repeat constructor|]. eexists. split; vm_compute; reflexivity.
  - split; [|vm_compute; reflexivity]. exists [], (tl sx_t). split; [reflexivity|]. repeat constructor.
Qed.

(** ** Contexts with common table expressions *)

Lemma fold_say_app {S A} (f : S -> A -> mres S) l1 l2 s : fold_say f s (l1 ++ l2) = (s' <-! fold_say f s l1 ;; fold_say f s' l2).
Proof.
  revert s. induction l1 as [|a l1 IH]; intros s; [reflexivity|]. cbn [app fold_say]. destruct (f s a) as [[s'|c]| |]; try reflexivity.
  unfold mbind at 1 2. cbn. apply IH.
Qed.

Lemma initialize_mok up db dflt l x : initialize_say up db dflt l = mok x <-> initialize up db dflt l = ok x.
Proof. rewrite mok_drop, initialize_drop. reflexivity. Qed.

Lemma initialize_taken up db dflt l x n : initialize up db dflt l = ok x ->
  (nget up (x_tables x) n = None <-> ~ Exists (fun b => name_eqb up n (cte_id b) = true) l).
Proof.
  intros E. destruct (initialize_extends _ _ _ _ _ E) as [(_ & _ & _ & H) _]. rewrite H, Forall_map, <- Forall_Exists_neg.
  rewrite !Forall_forall. split; intros F b Hb; specialize (F b Hb); cbn in *; destruct (name_eqb up n (cte_id b)); congruence.
Qed.

Lemma initialize_blames up db dflt l c : initialize_say up db dflt l = merr c <->
  exists l1 d l2 x, l = l1 ++ d :: l2 /\ initialize up db dflt l1 = ok x /\
    (infer_cte_say up x d = merr c \/
     (exists t, infer_cte up x d = ok t) /\ Exists (fun b => name_eqb up (cte_id d) (cte_id b) = true) l1 /\ c = CDuplicateCommon (cte_id d)).
Proof.
  assert (Again : forall l1 x1 d, initialize up db dflt l1 = ok x1 ->
    (t <-! infer_cte_say up x1 d ;;
     match define_relation_say up x1 (cte_id d) t with (x', Ok _) => mok x' | (_, Err e) => merr e end) = merr c <->
    (infer_cte_say up x1 d = merr c \/
     (exists t, infer_cte up x1 d = ok t) /\ Exists (fun b => name_eqb up (cte_id d) (cte_id b) = true) l1 /\ c = CDuplicateCommon (cte_id d))).
  { intros l1 x1 d E. rewrite mbind_err. unfold define_relation_say. pose proof (initialize_taken _ _ _ _ _ (cte_id d) E) as N.
    split; (intros [H|H]; [left; exact H|right]).
    - destruct H as (t & Et & H). split; [exists t; rewrite <- cte_drop, Et; reflexivity|].
      destruct (nget up (x_tables x1) (cte_id d)); [|discriminate]. injection H as <-. split; [|reflexivity].
      destruct (Exists_dec (fun b => name_eqb up (cte_id d) (cte_id b) = true) l1) as [X|X]; [intros b; apply Bool.bool_dec|exact X|].
      apply N in X. discriminate.
    - destruct H as ((t & Et) & X & ->). exists t. split; [apply mok_drop; rewrite cte_drop; exact Et|].
      destruct (nget up (x_tables x1) (cte_id d)); [reflexivity|]. exfalso. apply (proj1 N eq_refl). exact X. }
  split.
  - induction l as [|d l IH] using rev_ind; [discriminate|]. unfold initialize_say. rewrite fold_say_app, mbind_err.
    intros [H|(x1 & E1 & H)].
    + destruct (IH H) as (l1 & e & l2 & x1 & -> & R). exists l1, e, (l2 ++ [d]), x1. split; [|exact R].
      rewrite <- app_assoc. reflexivity.
    + apply initialize_mok in E1. cbn [fold_say] in H. apply mbind_err in H as [H|(x2 & _ & H)]; [|discriminate].
      apply (Again _ _ _ E1) in H. exists l, d, [], x1. auto.
  - intros (l1 & d & l2 & x1 & -> & E & H). unfold initialize_say. rewrite fold_say_app. apply mbind_err. right. exists x1.
    split; [apply initialize_mok; exact E|]. cbn [fold_say]. apply mbind_err. left. apply (Again _ _ _ E). exact H.
Qed.
