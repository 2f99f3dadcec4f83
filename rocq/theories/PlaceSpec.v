(** * PlaceSpec: folders, names and paths, for C145 *)
From Verif Require Import Py CrudModel.
From Coq Require Import Ascii.
Open Scope string_scope.
Open Scope list_scope.

(** A text without a slash: the name of a file. *)
Definition no_slash (s : string) : Prop := ~ In "/"%char (list_ascii_of_string s).
(** An absolute folder as [os.path.abspath] gives it: the root, or a text that
    does not end with a slash. *)
Definition folder (d : string) : Prop := d = "/" \/ (d <> "" /\ forall r, d <> (r ++ "/")%string).
(** The path of a file in a folder. *)
Definition inside (d name : string) : string :=
  if string_dec d "/" then ("/" ++ name)%string else (d ++ "/" ++ name)%string.

(** What was stored by this call, and when, if it was a call that stores. *)
Definition stored_on {D T : Type} (e : event D T) : option (string * item T) :=
  match e_op e, e_answer e with
  | OSaver date _ _, Ok (AItem it) | OData date _ _, Ok (AItem it) => Some (date, it)
  | _, _ => None
  end.
