(** * The labels of types given as text *)

From Coq Require Import Strings.String.
From Verif Require Import Base StrModel TypesModel TypesSpec LayoutProofs JsonModel JsonSpec SqlWords SqlParseModel TypeParseModel TypeGrammar TypeParsed TypeUseSpec TypeUse JsonRewriteSpec.
Local Open Scope list_scope.

Lemma nameable_plain t : nameable t -> no_repeats t -> all_structs (fun n => n < 64) t -> plain_labels t.
Proof.
  induction t using ty_ind'; intros N R A; inversion N as [|? | |? _ F|? _ F|? _ F]; subst; inversion R as [| | |? FR|? ND FR|? ND FR]; subst;
    inversion A as [| | |? FA|? HA FA|? FA]; subst; constructor; try assumption; rewrite Forall_forall in *.
  - auto.
  - intros f I. destruct (F f I) as [[J _] M]. split; [exact (identifier_json _ J)|]. exact (H f I M (FR f I) (FA f I)).
  - intros f I. destruct (F f I) as [[J _] M]. split; [exact (identifier_json _ J)|]. exact (H f I M (FR f I) (FA f I)).
Qed.
