(** * Induction over rewritings *)

From Coq Require Import Sorting.Permutation.
From Verif Require Import Base SqlNameModel SqlModel SqlRewriteSpec.

Definition each2 {A : Type} {R P : A -> A -> Prop} (f : forall a b, R a b -> P a b) :
  forall l l', Forall2 R l l' -> Forall2 P l l' :=
  fix go l l' (F : Forall2 R l l') : Forall2 P l l' :=
    match F in Forall2 _ l l' return Forall2 P l l' with
    | Forall2_nil _ => Forall2_nil P
    | Forall2_cons a b r F' => Forall2_cons a b (f a b r) (go _ _ F')
    end.

Definition both2 {A : Type} {R P : A -> A -> Prop} (f : forall a b, R a b -> P a b) o o' (B : both R o o') : both P o o' :=
  match B in both _ o o' return both P o o' with
  | both_none _ => both_none P
  | both_some _ a b r => both_some P a b (f a b r)
  end.

Section Induction.
Context (PE : expr -> expr -> Prop) (PSP : set_spec -> set_spec -> Prop) (PS : select -> select -> Prop)
  (PC : cte -> cte -> Prop) (PX : set_expr -> set_expr -> Prop) (PF : list table_expr -> list table_expr -> Prop)
  (PT : table_expr -> table_expr -> Prop) (PN : join_constraint -> join_constraint -> Prop)
  (PR : result_columns -> result_columns -> Prop) (PK : result_column -> result_column -> Prop).

Context
  (Hbetween : forall e lo hi, PE (EBetween e lo hi) (EBinary BAnd (ECompare CLessEqual lo e) (ECompare CLessEqual e hi)))
  (Hflip : forall op op' a b, flipped op op' -> PE (ECompare op a b) (ECompare op' b a))
  (Hnot : forall op op' a b, opposite op op' -> PE (EUnary UNot (ECompare op a b)) (ECompare op' a b))
  (Hdual : forall op op' a b, dual op op' ->
    PE (EUnary UNot (EBinary op a b)) (EBinary op' (EUnary UNot a) (EUnary UNot b)))
  (Hsub : forall a b, PE (EBinary BSubtract a b) (EBinary BAdd a (EUnary UNegate b)))
  (Hcomm : forall op a b, commutative op -> PE (EBinary op a b) (EBinary op b a))
  (Hassoc : forall op a b c, associative op -> PE (EBinary op (EBinary op a b) c) (EBinary op a (EBinary op b c)))
  (Hdist : forall op op' a b c, distributes op op' ->
    PE (EBinary op a (EBinary op' b c)) (EBinary op' (EBinary op a b) (EBinary op a c)))
  (Hinord : forall e es es', Permutation es es' -> PE (EIn e (SpList es)) (EIn e (SpList es')))
  (Hrefl : forall e, PE e e) (Hsym : forall a b, PE a b -> PE b a) (Htrans : forall a b c, PE a b -> PE b c -> PE a c)
  (Hrow : forall es es', Forall2 PE es es' -> PE (ETuple es) (ETuple es'))
  (Hsel : forall s s', PS s s' -> PE (ESelect s) (ESelect s'))
  (Hun : forall op e e', PE e e' -> PE (EUnary op e) (EUnary op e'))
  (Hbin : forall op a b a' b', PE a a' -> PE b b' -> PE (EBinary op a b) (EBinary op a' b'))
  (Hcmp : forall op a b a' b', PE a a' -> PE b b' -> PE (ECompare op a b) (ECompare op a' b'))
  (Hin : forall e e' s s', PE e e' -> PSP s s' -> PE (EIn e s) (EIn e' s'))
  (Hrange : forall e lo hi e' lo' hi', PE e e' -> PE lo lo' -> PE hi hi' -> PE (EBetween e lo hi) (EBetween e' lo' hi'))
  (Hcase : forall o o' whens whens' els els', both PE o o' ->
    Forall2 (fun w w' => PE (fst w) (fst w') /\ PE (snd w) (snd w')) whens whens' -> both PE els els' ->
    PE (ECase o whens els) (ECase o' whens' els'))
  (Hsps : forall s s', PS s s' -> PSP (SpSelect s) (SpSelect s'))
  (Hspl : forall es es', Forall2 PE es es' -> PSP (SpList es) (SpList es'))
  (Hspn : forall q, PSP (SpName q) (SpName q))
  (Hwith : forall common common' e order lim, Permutation common common' ->
    PS (Select common e order lim) (Select common' e order lim))
  (Hsrefl : forall s, PS s s) (Hstrans : forall a b c, PS a b -> PS b c -> PS a c)
  (Hselect : forall common common' e e' order order' lim lim', Forall2 PC common common' -> PX e e' ->
    Forall2 (fun o o' => PE (fst (fst o)) (fst (fst o')) /\ snd (fst o) = snd (fst o') /\ snd o = snd o') order order' ->
    both (fun l l' => PE (fst l) (fst l') /\ both PE (snd l) (snd l')) lim lim' ->
    PS (Select common e order lim) (Select common' e' order' lim'))
  (Hcte : forall id columns q q', PS q q' -> PC (Cte id columns q) (Cte id columns q'))
  (Hfrom : forall mode l from from' wh group, Permutation from from' ->
    PX (SQuery mode (RList l) from wh group) (SQuery mode (RList l) from' wh group))
  (Hgroup : forall mode columns from wh gs gs' having, Permutation gs gs' ->
    PX (SQuery mode columns from wh (Some (gs, having))) (SQuery mode columns from wh (Some (gs', having))))
  (Hxrefl : forall e, PX e e) (Hxtrans : forall a b c, PX a b -> PX b c -> PX a c)
  (Hval : forall rows rows', Forall2 (Forall2 PE) rows rows' -> PX (SValues rows) (SValues rows'))
  (Hquery : forall mode columns columns' from from' wh wh' group group', PR columns columns' -> PF from from' ->
    both PE wh wh' -> both (fun g g' => Forall2 PE (fst g) (fst g') /\ both PE (snd g) (snd g')) group group' ->
    PX (SQuery mode columns from wh group) (SQuery mode columns' from' wh' group'))
  (Hop : forall op l r l' r', PX l l' -> PX r r' -> PX (SOp op l r) (SOp op l' r'))
  (Hcross : forall a b l r c, PF (a ++ TJoin l r JCross c :: b) (a ++ l :: r :: b))
  (Hftrans : forall a b c, PF a b -> PF b c -> PF a c) (Hfsym : forall a b, PF a b -> PF b a)
  (Hfeach : forall from from', Forall2 PT from from' -> PF from from')
  (Hregroup : forall a b c k1 k2 k3 k4,
    PT (TJoin (TJoin a b JCross k1) c JCross k2) (TJoin a (TJoin b c JCross k3) JCross k4))
  (Htrefl : forall t, PT t t)
  (Hts : forall s s' alias, PS s s' -> PT (TSelect s alias) (TSelect s' alias))
  (Htj : forall l l' r r' op c c', PT l l' -> PT r r' -> PN c c' -> PT (TJoin l r op c) (TJoin l' r' op c'))
  (Hon : forall e e', PE e e' -> PN (JExpr e) (JExpr e'))
  (Husing : forall l, PN (JColumns l) (JColumns l))
  (Hall : PR RAll RAll)
  (Hlist : forall l l', Forall2 PK l l' -> PR (RList l) (RList l'))
  (Hstar : forall n, PK (RAllFrom n) (RAllFrom n))
  (Hexpr : forall e e' rename, PE e e' -> PK (RExpr e rename) (RExpr e' rename)).

Fixpoint ind_expr e e' (d : same_expr e e') {struct d} : PE e e' :=
  match d in same_expr e e' return PE e e' with
  | e_between e lo hi => Hbetween e lo hi
  | e_flip op op' a b H => Hflip op op' a b H
  | e_not op op' a b H => Hnot op op' a b H
  | e_dual op op' a b H => Hdual op op' a b H
  | e_subtract a b => Hsub a b
  | e_commute op a b H => Hcomm op a b H
  | e_regroup op a b c H => Hassoc op a b c H
  | e_distribute op op' a b c H => Hdist op op' a b c H
  | e_in_order e es es' H => Hinord e es es' H
  | e_refl e => Hrefl e
  | e_sym a b H => Hsym a b (ind_expr a b H)
  | e_trans a b c H1 H2 => Htrans a b c (ind_expr a b H1) (ind_expr b c H2)
  | e_row es es' H => Hrow es es' (each2 ind_expr es es' H)
  | e_select s s' H => Hsel s s' (ind_select s s' H)
  | e_unary op e e' H => Hun op e e' (ind_expr e e' H)
  | e_binary op a b a' b' H1 H2 => Hbin op a b a' b' (ind_expr a a' H1) (ind_expr b b' H2)
  | e_compare op a b a' b' H1 H2 => Hcmp op a b a' b' (ind_expr a a' H1) (ind_expr b b' H2)
  | e_in e e' s s' H1 H2 => Hin e e' s s' (ind_expr e e' H1) (ind_spec s s' H2)
  | e_range e lo hi e' lo' hi' H1 H2 H3 =>
      Hrange e lo hi e' lo' hi' (ind_expr e e' H1) (ind_expr lo lo' H2) (ind_expr hi hi' H3)
  | e_case o o' whens whens' els els' H1 H2 H3 =>
      Hcase o o' whens whens' els els' (both2 ind_expr o o' H1)
        (each2 (fun w w' (H : same_expr (fst w) (fst w') /\ same_expr (snd w) (snd w')) =>
                  match H with conj A B => conj (ind_expr _ _ A) (ind_expr _ _ B) end) whens whens' H2)
        (both2 ind_expr els els' H3)
  end
with ind_spec s s' (d : same_spec s s') {struct d} : PSP s s' :=
  match d in same_spec s s' return PSP s s' with
  | p_select s s' H => Hsps s s' (ind_select s s' H)
  | p_list es es' H => Hspl es es' (each2 ind_expr es es' H)
  | p_name q => Hspn q
  end
with ind_select s s' (d : same_select s s') {struct d} : PS s s' :=
  match d in same_select s s' return PS s s' with
  | q_with common common' e order lim H => Hwith common common' e order lim H
  | q_refl s => Hsrefl s
  | q_trans a b c H1 H2 => Hstrans a b c (ind_select a b H1) (ind_select b c H2)
  | q_inside common common' e e' order order' lim lim' H1 H2 H3 H4 =>
      Hselect common common' e e' order order' lim lim' (each2 ind_cte common common' H1) (ind_set e e' H2)
        (each2 (fun o o' (H : same_expr (fst (fst o)) (fst (fst o')) /\ snd (fst o) = snd (fst o') /\ snd o = snd o') =>
                  match H with conj A B => conj (ind_expr _ _ A) B end) order order' H3)
        (both2 (fun l l' (H : same_expr (fst l) (fst l') /\ both same_expr (snd l) (snd l')) =>
                  match H with conj A B => conj (ind_expr _ _ A) (both2 ind_expr _ _ B) end) lim lim' H4)
  end
with ind_cte c c' (d : same_cte c c') {struct d} : PC c c' :=
  match d in same_cte c c' return PC c c' with
  | c_inside id columns q q' H => Hcte id columns q q' (ind_select q q' H)
  end
with ind_set e e' (d : same_set e e') {struct d} : PX e e' :=
  match d in same_set e e' return PX e e' with
  | x_from mode l from from' wh group H => Hfrom mode l from from' wh group H
  | x_group mode columns from wh gs gs' having H => Hgroup mode columns from wh gs gs' having H
  | x_refl e => Hxrefl e
  | x_trans a b c H1 H2 => Hxtrans a b c (ind_set a b H1) (ind_set b c H2)
  | x_rows rows rows' H => Hval rows rows' (each2 (each2 ind_expr) rows rows' H)
  | x_inside mode columns columns' from from' wh wh' group group' H1 H2 H3 H4 =>
      Hquery mode columns columns' from from' wh wh' group group' (ind_columns columns columns' H1) (ind_from from from' H2)
        (both2 ind_expr wh wh' H3)
        (both2 (fun g g' (H : Forall2 same_expr (fst g) (fst g') /\ both same_expr (snd g) (snd g')) =>
                  match H with conj A B => conj (each2 ind_expr _ _ A) (both2 ind_expr _ _ B) end) group group' H4)
  | x_op op l r l' r' H1 H2 => Hop op l r l' r' (ind_set l l' H1) (ind_set r r' H2)
  end
with ind_from f f' (d : same_from f f') {struct d} : PF f f' :=
  match d in same_from f f' return PF f f' with
  | f_cross a b l r c => Hcross a b l r c
  | f_trans a b c H1 H2 => Hftrans a b c (ind_from a b H1) (ind_from b c H2)
  | f_sym a b H => Hfsym a b (ind_from a b H)
  | f_inside from from' H => Hfeach from from' (each2 ind_item from from' H)
  end
with ind_item t t' (d : same_item t t') {struct d} : PT t t' :=
  match d in same_item t t' return PT t t' with
  | i_regroup a b c k1 k2 k3 k4 => Hregroup a b c k1 k2 k3 k4
  | i_refl t => Htrefl t
  | i_select s s' alias H => Hts s s' alias (ind_select s s' H)
  | i_join l l' r r' op c c' H1 H2 H3 => Htj l l' r r' op c c' (ind_item l l' H1) (ind_item r r' H2) (ind_on c c' H3)
  end
with ind_on n n' (d : same_on n n') {struct d} : PN n n' :=
  match d in same_on n n' return PN n n' with
  | n_on e e' H => Hon e e' (ind_expr e e' H)
  | n_using l => Husing l
  end
with ind_columns r r' (d : same_columns r r') {struct d} : PR r r' :=
  match d in same_columns r r' return PR r r' with
  | l_all => Hall
  | l_list l l' H => Hlist l l' (each2 ind_column l l' H)
  end
with ind_column k k' (d : same_column k k') {struct d} : PK k k' :=
  match d in same_column k k' return PK k k' with
  | k_star n => Hstar n
  | k_expr e e' rename H => Hexpr e e' rename (ind_expr e e' H)
  end.

Lemma same_induction :
  (forall e e', same_expr e e' -> PE e e') /\ (forall s s', same_select s s' -> PS s s') /\
  (forall e e', same_set e e' -> PX e e').
Proof. exact (conj ind_expr (conj ind_select ind_set)). Qed.
End Induction.
