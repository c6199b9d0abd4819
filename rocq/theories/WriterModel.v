(** * Model of core/json/encoder.rs with a writer that does not take everything

    [JsonModel.emit] is the encoder with a [Vec<u8>]. Here the writer is any [dyn io::Write]. *)

From Coq Require Import Strings.String.
From Verif Require Import Base StrModel Utf8Model TypesModel MarshalModel JsonModel.
Local Open Scope list_scope.

(** What a writer can answer to one call of [write] with a non-empty buffer. *)
Inductive answer : Type :=
| Full                (* takes the whole buffer *)
| Short (n : nat)     (* takes at most [n] bytes *)
| Interrupted         (* [ErrorKind::Interrupted] *)
| Fails.              (* any other error *)

(** The errors of [write] and [write_all]. *)
Inductive werr : Type := EInterrupted | EFails | EWriteZero.

(** A writer: the answers to come, then it takes everything; and the bytes taken so far. Every finite behaviour of a
    writer is a list of answers. *)
Record writer : Type := { w_answers : list answer; w_out : list byte }.

(** An operation on the writer. *)
Definition io : Type := writer -> outcome (writer * result unit werr).

(** The [?] operator. *)
Definition andthen (m1 m2 : io) : io := fun w =>
  '(w1, r) <- m1 w ;;
  match r with Ok _ => m2 w1 | Err e => Ret (w1, Err e) end.
Notation "m1 >> m2" := (andthen m1 m2) (at level 60, right associativity).

Definition done : io := fun w => Ret (w, Ok tt).

Definition take (w : writer) (answers : list answer) (bs : list byte) : writer :=
  {| w_answers := answers; w_out := w_out w ++ bs |}.

(** [Write::write], the number of bytes taken being ignored. *)
Definition write_once (buf : list byte) : io := fun w =>
  match w_answers w with
  | [] | Full :: _ => Ret (take w (tl (w_answers w)) buf, Ok tt)
  | Short n :: a => Ret (take w a (firstn n buf), Ok tt)
  | Interrupted :: a => Ret (take w a [], Err EInterrupted)
  | Fails :: a => Ret (take w a [], Err EFails)
  end.

(** [Write::write_all] of the standard library: calls [write] until the buffer is empty; retries if interrupted. *)
Fixpoint write_loop (a : list answer) (out buf : list byte) : writer * result unit werr :=
  match buf, a with
  | [], _ => ({| w_answers := a; w_out := out |}, Ok tt)
  | _, [] => ({| w_answers := []; w_out := out ++ buf |}, Ok tt)
  | _, Full :: a' => ({| w_answers := a'; w_out := out ++ buf |}, Ok tt)
  | _, Short O :: a' => ({| w_answers := a'; w_out := out |}, Err EWriteZero)
  | _, Short n :: a' => write_loop a' (out ++ firstn n buf) (skipn n buf)
  | _, Interrupted :: a' => write_loop a' out buf
  | _, Fails :: a' => ({| w_answers := a'; w_out := out |}, Err EFails)
  end.

Definition write_all (buf : list byte) : io := fun w => Ret (write_loop (w_answers w) (w_out w) buf).

Definition write_text (s : string) : io := write_all (utf8_encode (lit s)).

(** A loop that stops at the first error. *)
Section Each.
Context {A : Type} (f : A -> io).
Fixpoint each (l : list A) : io := match l with [] => done | a :: l' => f a >> each l' end.
End Each.

(** src/core/json/encoder.rs:33-81 [write_ch]: one call of [write] with the bytes that [JsonModel.write_ch] gives. *)
Definition write_ch_to (c : char) : io := write_once (write_ch c).

(** src/core/json/encoder.rs:83-92 [emit_utf8_string]. *)
Definition emit_string_to (s : str) : io := write_text """" >> each write_ch_to s >> write_text """".

Section Emit.

(** [pieces] cuts the text of a number into what [fmt] passes on at a time; each piece goes to [write_all]. *)
Variables (fl : floats) (pieces : str -> list str) (src : source).

(** [write!(writer, "{}", value)] (src/core/json/encoder.rs:224-249). *)
Definition write_number (p : prim) (z : Z) : io := each (fun s => write_all (utf8_encode s)) (pieces (show_number fl p z)).

(** src/core/json/encoder.rs:192-234: [EmitBoolean], [EmitChar], [EmitNumber]. *)
Definition emit_prim_to (p : prim) (q : path) : io :=
  match p with
  | PBool => fun w => z <- src_prim src p q ;; write_text (if negb (z =? 0)%Z then "true" else "false") w
  | PChar => write_text """" >> (fun w => z <- src_prim src p q ;; write_ch_to z w) >> write_text """"
  | _ => fun w => z <- src_prim src p q ;; write_number p z w
  end.

(** The loops of [EmitTuple] and [EmitStruct] (src/core/json/encoder.rs:116-125 and 140-151). *)
Section Members.
Context {A : Type} (f : A -> path -> io).
Fixpoint members_to (l : list A) (prefix : path) (k : nat) : io :=
  match l with
  | [] => done
  | a :: l' => (if (k =? 0)%nat then done else write_text ",") >> f a (with_component prefix k) >> members_to l' prefix (S k)
  end.
End Members.

(** [self.cases[case_tag]] (src/core/json/encoder.rs:166-168). *)
Section Case.
Context {A : Type} (f : A -> io).
Fixpoint case_to (l : list A) (k : nat) : io :=
  match l, k with
  | [], _ => fun _ => Panic
  | a :: _, O => f a
  | _ :: l', S k' => case_to l' k'
  end.
End Case.

(** src/core/json/encoder.rs:94-393 [emitter_for_type] composed with the [emit] methods. *)
Fixpoint emit_to (t : ty) (q : path) : io :=
  match t with
  | TUnit => write_text "null"
  | TPrim p => emit_prim_to p q
  | TString => fun w =>
      bs <- src_bytes src q ;;
      match utf8_decode bs with Some s => emit_string_to s w | None => Panic end
  | TTuple ts => write_text "[" >> members_to emit_to ts q 0 >> write_text "]"
  | TStruct fs =>
      write_text "{" >>
      members_to (fun f q' => emit_string_to (fst f) >> write_text ":" >> emit_to (snd f) q') fs q 0 >>
      write_text "}"
  | TEnum cs =>
      write_text "{""kind"":" >> (fun w =>
      tag <- src_tag src q ;;
      case_to (fun c => emit_string_to (fst c) >> write_text ",""value"":" >> emit_to (snd c) (with_component q tag) >>
                        write_text "}") cs tag w)
  end.

(** src/core/json/encoder.rs:405-407 [JsonEncoder::encode]. *)
Definition encode_to (t : ty) : io := emit_to t [].

End Emit.
