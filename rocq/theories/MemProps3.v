(** * C15: interrupted episodes. *)
From Verif Require Import Py PyLemmas MemModel MemSpec MemProofs MemRun MemSample AdaptorModel
  AdaptorProofs MemExamples.
Open Scope string_scope.
Open Scope list_scope.
Open Scope Z_scope.

(** ** C15: interrupted episodes are not treated as terminal.

    The table of the builders with use_terminal_column: "terminal" is a tag that
    MemoryTableProxy sets to 1 for INTERRUPTED and 0 for TERMINAL episodes
    (emote/memory/memory.py:145-150), "masks" is the mask column, and the sampler passes
    through TerminalAdaptor("terminal", "masks").

    What holds: the "terminal" key of the batch is 0 for a window exactly if the
    window ends at the last transition of an episode that ended in TERMINAL.
    What is missing: the value targets (emote/algorithms/sac.py:146-161) read "masks", not
    "terminal", and there an interrupted episode still has mask 0 at its end
    ([C15_masks_refuted]). *)
Theorem C15_terminal_key_partial :
  forall (S : Type) (HS : Scalar S) (cols : list (column S)) (lenkey : string) (maxlen : Z)
         (smp : sampler) (ej : ejector) (ops : list (op S)) (count L : nat) (draws : list draw)
         (out : dict string (array S)) (tc mc : column S) (interrupted : Z -> bool),
  sampling_ok cols lenkey smp ej ops L ->
  let t := run (t_create cols lenkey maxlen smp ej) ops in
  In tc cols -> c_name tc = "terminal" -> c_kind tc = KTag ->
  In mc cols -> c_name mc = "masks" -> c_kind mc = KVirt lenkey MMask ->
  c_cast tc s_one = s_one -> c_cast tc s_zero = s_zero ->
  Forall (fun e => dget (snd e) "terminal" =
                   Some [[if interrupted (fst e) then s_one else s_zero]]) (adds ops) ->
  sample_terminal t count L draws = Ok out ->
  exists ws tags masks, batch_of t lenkey count L ws /\
    dget out "terminal" = Some tags /\ List.length tags = count /\
    dget out "masks" = Some masks /\ List.length masks = (count * L)%nat /\
    forall i w, nth_error ws i = Some w ->
      let at_end := w_start w + Z.of_nat L =? seq_len lenkey (w_seq w) in
      nth_error tags i =
        Some [if at_end && negb (interrupted (fst (fst w))) then s_zero else s_one] /\
      nth_error masks (i * L + (L - 1)) = Some [if at_end then s_zero else s_one].
Proof. intros S HS. exact terminal_key. Qed.
Print Assumptions C15_terminal_key_partial.

(** Two episodes of two transitions: 7 interrupted, 8 terminal. *)
Definition term_cols : list (column Z) := ex_cols ++ [mkCol "terminal" 1 idz KTag].
Definition term_ops : list (op Z) :=
  [ OAdd 7 (ex_seq 0 2 ++ [("terminal", [[1]])]) [];
    OAdd 8 (ex_seq 10 2 ++ [("terminal", [[0]])]) [] ].
Definition term_table : table Z :=
  run (t_create term_cols "actions" 10 (SWeighted (w_init false)) (EFifo fifo_init)) term_ops.

Example C15_example :
  sampling_ok term_cols "actions" (SWeighted (w_init false)) (EFifo fifo_init) term_ops 1 /\
  Forall (fun e => dget (snd e) "terminal" =
                   Some [[if fst e =? 7 then 1 else 0]]) (adds term_ops) /\
  match sample_terminal term_table 4 1 [(7, 0); (7, 2 ^ 53 - 1); (8, 0); (8, 2 ^ 53 - 1)] with
  | Ok out => dget out "terminal" = Some [[1]; [1]; [1]; [0]]
  | Err _ => False
  end.
Proof.
  split; [|split; [repeat constructor|vm_compute; auto]].
  split; [|split; [constructor|split; [constructor|split; [|split; [lia|]]]]].
  - constructor.
    + repeat constructor; simpl; intuition discriminate.
    + intros c Hc. simpl in Hc. repeat (destruct Hc as [<-|Hc]; [simpl; lia|]). destruct Hc.
    + exists (mkCol "actions" 1 idz KBase). simpl. unfold is_base. auto 10.
    + intros c tg m Hc E. simpl in Hc.
      repeat (destruct Hc as [<-|Hc]; [simpl in E; try discriminate; inversion E; subst|]); try destruct Hc.
      * exists (mkCol "obs" 1 idz KBase). simpl. unfold is_base. auto 10.
      * exists (mkCol "actions" 1 idz KBase). simpl. unfold is_base. auto 10.
  - split; [apply Forall_forall; intros o Ho ->; simpl in Ho; intuition discriminate|].
    split; [|simpl; repeat constructor; simpl; intuition (try discriminate; try lia)].
    apply Forall_forall. intros o Ho. simpl in Ho.
    repeat (destruct Ho as [<-|Ho]; [
      split; [repeat constructor; simpl; intuition discriminate|];
      split; [simpl; tauto|];
      intros c fr Hc E; simpl in Hc; 
      repeat (destruct Hc as [<-|Hc]; [simpl in E; inversion E; subst; repeat constructor|]); destruct Hc|]).
    destruct Ho.
  - apply Forall_forall. intros x Hx. simpl in Hx.
    repeat (destruct Hx as [<-|Hx]; [split; [repeat constructor; unfold col_ok, seq_len, zlen; simpl; lia|
       vm_compute; intuition discriminate]|]).
    destruct Hx.
Qed.

(** "masks", what QTarget multiplies the bootstrap value with, is 0 for the last
    transition of the interrupted episode 7, as for the terminal episode 8. *)
Theorem C15_masks_refuted :
  match sample_terminal term_table 2 1 [(7, 2 ^ 53 - 1); (8, 2 ^ 53 - 1)] with
  | Ok out => dget out "masks" = Some [[0]; [0]] /\ dget out "terminal" = Some [[1]; [0]]
  | Err _ => False
  end.
Proof. vm_compute. auto. Qed.
Print Assumptions C15_masks_refuted.
