(** * Induction over the syntax trees of SQL *)

From Verif Require Import Base SqlNameModel SqlModel.

Definition all_of {A : Type} {P : A -> Prop} (f : forall a, P a) : forall l : list A, Forall P l :=
  fix go (l : list A) : Forall P l :=
    match l with
    | [] => Forall_nil P
    | a :: l' => Forall_cons a (f a) (go l')
    end.

Definition if_some {A : Type} (P : A -> Prop) (o : option A) : Prop :=
  match o with Some a => P a | None => True end.

Definition some_of {A : Type} {P : A -> Prop} (f : forall a, P a) (o : option A) : if_some P o :=
  match o with Some a => f a | None => I end.

Definition if_on (P : expr -> Prop) (c : join_constraint) : Prop :=
  match c with JExpr e => P e | JColumns _ => True end.

Section Induction.
Context (PE : expr -> Prop) (PSP : set_spec -> Prop) (PS : select -> Prop) (PC : cte -> Prop) (PX : set_expr -> Prop)
  (PT : table_expr -> Prop) (PR : result_columns -> Prop) (PK : result_column -> Prop).

Context
  (Hlit : forall l, PE (ELiteral l))
  (Hname : forall q, PE (EName q))
  (Htup : forall es, Forall PE es -> PE (ETuple es))
  (Hsel : forall s, PS s -> PE (ESelect s))
  (Hun : forall op e, PE e -> PE (EUnary op e))
  (Hbin : forall op l r, PE l -> PE r -> PE (EBinary op l r))
  (Hcmp : forall op l r, PE l -> PE r -> PE (ECompare op l r))
  (Hin : forall e s, PE e -> PSP s -> PE (EIn e s))
  (Hbet : forall e lo hi, PE e -> PE lo -> PE hi -> PE (EBetween e lo hi))
  (Hcase : forall o whens els, if_some PE o -> Forall (fun p => PE (fst p) /\ PE (snd p)) whens -> if_some PE els ->
           PE (ECase o whens els))
  (Hsps : forall s, PS s -> PSP (SpSelect s))
  (Hspl : forall es, Forall PE es -> PSP (SpList es))
  (Hspn : forall q, PSP (SpName q))
  (Hselect : forall common e order lim, Forall PC common -> PX e -> Forall (fun o => PE (fst (fst o))) order ->
             if_some (fun l => PE (fst l) /\ if_some PE (snd l)) lim -> PS (Select common e order lim))
  (Hcte : forall id columns q, PS q -> PC (Cte id columns q))
  (Hval : forall rows, Forall (Forall PE) rows -> PX (SValues rows))
  (Hquery : forall mode columns from wh group, PR columns -> Forall PT from -> if_some PE wh ->
            if_some (fun g => Forall PE (fst g) /\ if_some PE (snd g)) group -> PX (SQuery mode columns from wh group))
  (Hop : forall op l r, PX l -> PX r -> PX (SOp op l r))
  (Htn : forall q alias, PT (TNamed q alias))
  (Hts : forall s alias, PS s -> PT (TSelect s alias))
  (Htj : forall l r op c, PT l -> PT r -> if_on PE c -> PT (TJoin l r op c))
  (Hall : PR RAll)
  (Hlist : forall l, Forall PK l -> PR (RList l))
  (Hfrom : forall n, PK (RAllFrom n))
  (Hexpr : forall e rename, PE e -> PK (RExpr e rename)).

Fixpoint expr_ind' (e : expr) : PE e :=
  match e with
  | ELiteral l => Hlit l
  | EName q => Hname q
  | ETuple es => Htup es (all_of expr_ind' es)
  | ESelect s => Hsel s (select_ind' s)
  | EUnary op e => Hun op e (expr_ind' e)
  | EBinary op l r => Hbin op l r (expr_ind' l) (expr_ind' r)
  | ECompare op l r => Hcmp op l r (expr_ind' l) (expr_ind' r)
  | EIn e s => Hin e s (expr_ind' e) (spec_ind' s)
  | EBetween e lo hi => Hbet e lo hi (expr_ind' e) (expr_ind' lo) (expr_ind' hi)
  | ECase o whens els =>
      Hcase o whens els (some_of expr_ind' o)
        (all_of (fun p => match p return PE (fst p) /\ PE (snd p) with (a, b) => conj (expr_ind' a) (expr_ind' b) end) whens)
        (some_of expr_ind' els)
  end
with spec_ind' (s : set_spec) : PSP s :=
  match s with
  | SpSelect s => Hsps s (select_ind' s)
  | SpList es => Hspl es (all_of expr_ind' es)
  | SpName q => Hspn q
  end
with select_ind' (s : select) : PS s :=
  match s with
  | Select common e order lim =>
      Hselect common e order lim (all_of cte_ind' common) (set_ind' e)
        (all_of (fun o => match o return PE (fst (fst o)) with (p, _) =>
                            match p return PE (fst p) with (a, _) => expr_ind' a end end) order)
        (some_of (P := fun l => PE (fst l) /\ if_some PE (snd l))
           (fun l => match l return PE (fst l) /\ if_some PE (snd l) with (a, b) => conj (expr_ind' a) (some_of expr_ind' b) end) lim)
  end
with cte_ind' (c : cte) : PC c :=
  match c with
  | Cte id columns q => Hcte id columns q (select_ind' q)
  end
with set_ind' (e : set_expr) : PX e :=
  match e with
  | SValues rows => Hval rows (all_of (all_of expr_ind') rows)
  | SQuery mode columns from wh group =>
      Hquery mode columns from wh group (columns_ind' columns) (all_of table_ind' from) (some_of expr_ind' wh)
        (some_of (P := fun g => Forall PE (fst g) /\ if_some PE (snd g))
           (fun g => match g return Forall PE (fst g) /\ if_some PE (snd g) with
                     | (a, b) => conj (all_of expr_ind' a) (some_of expr_ind' b)
                     end) group)
  | SOp op l r => Hop op l r (set_ind' l) (set_ind' r)
  end
with table_ind' (t : table_expr) : PT t :=
  match t with
  | TNamed q alias => Htn q alias
  | TSelect s alias => Hts s alias (select_ind' s)
  | TJoin l r op c =>
      Htj l r op c (table_ind' l) (table_ind' r)
        (match c as d return if_on PE d with JExpr e => expr_ind' e | JColumns _ => I end)
  end
with columns_ind' (c : result_columns) : PR c :=
  match c with
  | RAll => Hall
  | RList l => Hlist l (all_of column_ind' l)
  end
with column_ind' (c : result_column) : PK c :=
  match c with
  | RAllFrom n => Hfrom n
  | RExpr e rename => Hexpr e rename (expr_ind' e)
  end.

Lemma sql_induction :
  (forall e, PE e) /\ (forall s, PSP s) /\ (forall s, PS s) /\ (forall c, PC c) /\ (forall e, PX e) /\ (forall t, PT t) /\
  (forall c, PR c) /\ (forall c, PK c).
Proof.
  exact (conj expr_ind' (conj spec_ind' (conj select_ind' (conj cte_ind' (conj set_ind' (conj table_ind'
           (conj columns_ind' column_ind'))))))).
Qed.
End Induction.
