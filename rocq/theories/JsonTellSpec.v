(** * Specification vocabulary: what JSON texts tell about values (C107) *)

From Verif Require Import Base StrModel TypesModel MarshalModel MarshalSpec JsonModel.
Local Open Scope list_scope.
Local Open Scope Z_scope.

(** The cases of each enum have different labels, and the labels consist of characters. *)
Inductive cases_told : ty -> Prop :=
| ct_unit : cases_told TUnit
| ct_prim p : cases_told (TPrim p)
| ct_string : cases_told TString
| ct_tuple ts : Forall cases_told ts -> cases_told (TTuple ts)
| ct_struct fs : Forall (fun f => cases_told (snd f)) fs -> cases_told (TStruct fs)
| ct_enum cs :
    NoDup (map fst cs) -> Forall (fun c => Forall (fun x => is_char x = true) (fst c)) cs ->
    Forall (fun c => cases_told (snd c)) cs -> cases_told (TEnum cs).

(** [alike fl t v v']: the values are the same, except that floating point numbers need only be displayed alike. *)
Inductive alike (fl : floats) : ty -> val -> val -> Prop :=
| al_unit : alike fl TUnit VUnit VUnit
| al_prim p z : alike fl (TPrim p) (VPrim z) (VPrim z)
| al_float p z z' : p = PF32 \/ p = PF64 -> show_float fl p z = show_float fl p z' -> alike fl (TPrim p) (VPrim z) (VPrim z')
| al_string bs : alike fl TString (VStr bs) (VStr bs)
| al_tuple ts vs vs' : alike_list fl ts vs vs' -> alike fl (TTuple ts) (VTuple vs) (VTuple vs')
| al_struct fs vs vs' : alike_list fl (map snd fs) vs vs' -> alike fl (TStruct fs) (VStruct vs) (VStruct vs')
| al_case cs k l t v v' : nth_error cs k = Some (l, t) -> alike fl t v v' -> alike fl (TEnum cs) (VCase k v) (VCase k v')
with alike_list (fl : floats) : list ty -> list val -> list val -> Prop :=
| all_nil : alike_list fl [] [] []
| all_cons t ts v v' vs vs' : alike fl t v v' -> alike_list fl ts vs vs' -> alike_list fl (t :: ts) (v :: vs) (v' :: vs').

(** No floating point numbers at any depth. *)
Inductive float_free : ty -> Prop :=
| ff_unit : float_free TUnit
| ff_prim p : p <> PF32 -> p <> PF64 -> float_free (TPrim p)
| ff_string : float_free TString
| ff_tuple ts : Forall float_free ts -> float_free (TTuple ts)
| ff_struct fs : Forall (fun f => float_free (snd f)) fs -> float_free (TStruct fs)
| ff_enum cs : Forall (fun c => float_free (snd c)) cs -> float_free (TEnum cs).

(** Floating point numbers are displayed with ASCII characters, and neither with a comma nor with a closing bracket or
    brace. *)
Definition plain (c : Z) : Prop := 0 <= c < 128 /\ c <> 44 /\ c <> 93 /\ c <> 125.
Definition plain_floats (fl : floats) : Prop := forall p z, Forall plain (show_float fl p z).
