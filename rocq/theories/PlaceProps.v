(** * PlaceProps: the theorems for C145, and cases that meet their hypotheses *)
From Verif Require Import Py CrudModel PlaceSpec PlaceProofs.
Open Scope string_scope.
Open Scope list_scope.
Open Scope Z_scope.

(** In every history of calls, with any savers and outsiders: the item that a
    storing call returns is directly in the folder, under its documented name.
    Asked: no slash in the prefix and the extension. *)
Theorem C145_place_partial : forall (D T : Type) (dir prefix ext : string) (f : fs D) (c : config) (s : state D T) (ops : list (op D T)),
  init dir prefix ext f = Ok (c, s) -> folder dir -> no_slash prefix -> no_slash ext ->
  forall e date it, In e (history c ops s) -> stored_on e = Some (date, it) -> no_slash date ->
  it_path it = inside dir (prefix ++ date ++ "_" ++ handle_str (it_handle it) ++ "." ++ ext)%string.
Proof. exact (@stored_place). Qed.
Print Assumptions C145_place_partial.

(** An existing file is taken into the storage exactly if it is directly in the
    folder. *)
Theorem C145_register : forall (D T : Type) (dir prefix ext : string) (f : fs D) (c : config) (s : state D T) (ops : list (op D T)),
  init dir prefix ext f = Ok (c, s) ->
  forall e utc d name, In e (history c ops s) -> e_op e = ORegister utc (inside d name) -> folder d -> no_slash name ->
  ((exists h, e_answer e = Ok (AItem (mkItem h utc (inside d name)))) <->
     d = dir /\ exists x, dget (e_before e) (inside d name) = Some (File x)).
Proof. exact (@registered_place). Qed.
Print Assumptions C145_register.

(** A prefix that begins with a slash takes the files out of the folder. *)
Theorem C145_place_refuted : exists (dir prefix ext : string) (f : fs Z) (c : config) (s : state Z unit) (ops : list (op Z unit)),
  init dir prefix ext f = Ok (c, s) /\
  exists e it, history c ops s = [e] /\ stored_on e = Some ("1", it) /\ dget (e_after e) (it_path it) = Some (File 10)
    /\ forall name, it_path it <> inside dir name.
Proof.
  exists "/d", "/e/x", "bin", two_folders, (fst elsewhere), (snd elsewhere), [OData "1" tt 10].
  rewrite <- surjective_pairing. exact stored_elsewhere.
Qed.
Print Assumptions C145_place_refuted.

Example C145_case : init "/d" "x" "bin" three_files = Ok at_d
  /\ map (@e_answer Z unit) (history (fst at_d) slash_day (snd at_d))
     = [Ok (AItem (mkItem 0 tt "/d/x1_0.bin")); Ok (AItem (mkItem 1 tt "/d/mine")); Err OtherError]
  /\ folder "/d" /\ folder "/e" /\ no_slash "x" /\ no_slash "bin" /\ no_slash "1" /\ no_slash "mine" /\ no_slash "yours"
  /\ "/d/mine" = inside "/d" "mine" /\ "/e/yours" = inside "/e" "yours".
Proof. split; [exact (proj1 place_day)|]. split; [exact (proj2 place_day)|exact place_names]. Qed.
