(** * BldProps: builder tables (C109), legacy dumps (C110), importing memories (C111), the other adaptors (C112) *)
From Coq Require Import Lia Ascii.
From Verif Require Import Py MemModel MemSpec MemExamples AdaptorModel BldModel BldSpec BldMore BldLoad.
Open Scope string_scope.
Open Scope list_scope.
Open Scope Z_scope.

(** ** C109: tables made by the builders *)
(** Observation names that do not clash: whenever the table can sample, the batch has under "observation" and
    "next_observation" each named observation of the windows, at the same step and one step later, and the rest. *)
Theorem C109_one_step_partial : forall (S : Type) (HS : Scalar S) f32 dc mc term (m : mdp S) maxlen smp ops count L draws,
  spaces_ok m -> client_history (builder_columns MNext f32 dc mc term m) smp ops L ->
  let t := run (builder_table MNext f32 dc mc term m maxlen smp) ops in
  match snd (t_sample t count L draws) with
  | Err e => builder_sample t (dkeys (md_state m)) term count L draws = Err e
  | Ok _ => exists b ws, builder_sample t (dkeys (md_state m)) term count L draws = Ok b /\ batch_of t "actions" count L ws /\
      batch_says (fun k cast ws rows => window_rows k cast 1 L ws rows) m f32 L b ws
  end.
Proof. exact @one_step. Qed.
Print Assumptions C109_one_step_partial.
(** The n-step table: one next observation for every window, the one after its end. *)
Theorem C109_n_step_partial : forall (S : Type) (HS : Scalar S) f32 dc mc term (m : mdp S) maxlen smp ops count L draws,
  spaces_ok m -> client_history (builder_columns MNextLast f32 dc mc term m) smp ops L ->
  let t := run (builder_table MNextLast f32 dc mc term m maxlen smp) ops in
  match snd (t_sample t count L draws) with
  | Err e => builder_sample t (dkeys (md_state m)) term count L draws = Err e
  | Ok _ => exists b ws, builder_sample t (dkeys (md_state m)) term count L draws = Ok b /\ batch_of t "actions" count L ws /\
      batch_says (fun k cast ws rows => after_rows k cast L ws rows) m f32 L b ws
  end.
Proof. exact @n_step. Qed.
Print Assumptions C109_n_step_partial.
(** Two observations of which one is called like the other with "next_" in front: no batch ever. *)
Theorem C109_next_name_refuted : forall (S : Type) (HS : Scalar S) next f32 dc mc term (m : mdp S) maxlen smp ops count L draws b k,
  In k (dkeys (md_state m)) -> In (String.append "next_" k) (dkeys (md_state m)) ->
  builder_sample (run (builder_table next f32 dc mc term m maxlen smp) ops) (dkeys (md_state m)) term count L draws <> Ok b.
Proof. exact @collision. Qed.
Print Assumptions C109_next_name_refuted.
(** An observation called like one of the table's own columns: batches lack that column. *)
Theorem C109_reserved_name_refuted : forall (S : Type) (HS : Scalar S) next f32 dc mc (m : mdp S) maxlen smp ops count L draws b k,
  In k (dkeys (md_state m)) ->
  builder_sample (run (builder_table next f32 dc mc false m maxlen smp) ops) (dkeys (md_state m)) false count L draws = Ok b ->
  dget (bt_rows b) k = None.
Proof. exact @reserved_lost. Qed.
Print Assumptions C109_reserved_name_refuted.

Definition ex_mdp : mdp Z := mkMdp None (mkSpace 1 (fun x => x)) [("pixels", mkSpace 2 (fun x => x)); ("next", mkSpace 1 (fun x => x))].
Definition ex_episode (from : Z) (n : nat) : sequence Z :=
  [("pixels", map (fun i => [from + Z.of_nat i; Z.of_nat i]) (seq 0 (n + 1))); ("next", map (fun i => [from + 50 + Z.of_nat i]) (seq 0 (n + 1)));
   ("actions", map (fun i => [from + 100 + Z.of_nat i]) (seq 0 n)); ("rewards", map (fun i => [Z.of_nat i]) (seq 0 n)); ("terminal", [[1]])].
Definition ex_history : list (op Z) := [OAdd 7 (ex_episode 0 3) []; OAdd 8 (ex_episode 20 2) []].
Example ex_spaces : spaces_ok ex_mdp.
Proof.
  constructor; cbn.
  - repeat constructor; cbn; intuition discriminate.
  - intros k [<-|[<-|[]]]; cbn; intuition discriminate.
  - intros k [<-|[<-|[]]]; cbn; intuition discriminate.
  - lia.
  - intros r E; discriminate.
  - intros k s [E|[E|[]]]; injection E as <- <-; cbn; lia.
Qed.
Example ex_client next : next = MNext \/ next = MNextLast ->
  client_history (builder_columns next (fun x => x) (fun x => x) (fun x => x) true ex_mdp) (SFifo fifo_init false false) ex_history 2.
Proof.
  intros N.
  assert (Q : forall s, In s [ex_episode 0 3; ex_episode 20 2] -> seq_ok (builder_columns next (fun x => x) (fun x => x) (fun x => x) true ex_mdp) s).
  { intros s Hs. split; [|split].
    - destruct Hs as [<-|[<-|[]]]; repeat constructor; cbn; intuition discriminate.
    - destruct Hs as [<-|[<-|[]]]; intros n; destruct N as [-> | ->]; cbn; tauto.
    - intros c fr Hc E. destruct N as [-> | ->]; cbn in Hc; destruct Hs as [<-|[<-|[]]];
      repeat (destruct Hc as [<-|Hc]; [cbn in E; injection E as <-; repeat constructor|]); destruct Hc. }
  split; [constructor|]. split; [|split; [lia|]].
  - split; [|split].
    + apply Forall_forall. intros o Ho ->. cbn in Ho. intuition discriminate.
    + apply Forall_forall. intros e He. cbn in He. destruct He as [<-|[<-|[]]]; apply Q; cbn; auto.
    + cbn. repeat constructor; cbn; intuition (try discriminate; try lia).
  - repeat constructor; destruct N as [-> | ->]; cbn; lia.
Qed.
Example C109_case : spaces_ok ex_mdp /\
  client_history (builder_columns MNext (fun x => x) (fun x => x) (fun x => x) true ex_mdp) (SFifo fifo_init false false) ex_history 2 /\
  exists b, builder_sample (run (builder_table MNext (fun x => x) (fun x => x) (fun x => x) true ex_mdp 10 (SFifo fifo_init false false)) ex_history)
              (dkeys (md_state ex_mdp)) true 2 2 [] = Ok b /\
    dget (bt_obs b) "pixels" = Some [[0; 0]; [1; 1]; [20; 0]; [21; 1]] /\ dget (bt_next b) "pixels" = Some [[1; 1]; [2; 2]; [21; 1]; [22; 2]] /\
    dget (bt_next b) "next" = Some [[51]; [52]; [71]; [72]] /\ dget (bt_rows b) "masks" = Some [[1]; [1]; [1]; [0]].
Proof. split; [exact ex_spaces|]. split; [apply ex_client; auto|]. eexists. vm_compute. repeat split. Qed.
Example C109_case_n :
  client_history (builder_columns MNextLast (fun x => x) (fun x => x) (fun x => x) true ex_mdp) (SFifo fifo_init false false) ex_history 2 /\
  exists b, builder_sample (run (builder_table MNextLast (fun x => x) (fun x => x) (fun x => x) true ex_mdp 10 (SFifo fifo_init false false)) ex_history)
              (dkeys (md_state ex_mdp)) true 2 2 [] = Ok b /\ dget (bt_next b) "pixels" = Some [[2; 2]; [22; 2]].
Proof. split; [apply ex_client; auto|]. eexists. vm_compute. repeat split. Qed.
(** Observations "x" and "next_x": the table stores the episode, sampling fails; an observation called "rewards". *)
Definition clash_mdp (a b : string) : mdp Z := mkMdp None (mkSpace 1 (fun x => x)) [(a, mkSpace 1 (fun x => x)); (b, mkSpace 1 (fun x => x))].
Definition clash_ops (a b : string) : list (op Z) :=
  [OAdd 7 [(a, [[1]; [2]; [3]]); (b, [[4]; [5]; [6]]); ("actions", [[7]; [8]]); ("rewards", [[9]; [9]; [9]])] []].
Definition clash_table (a b : string) : table Z :=
  run (builder_table MNext (fun x => x) (fun x => x) (fun x => x) false (clash_mdp a b) 10 (SFifo fifo_init false false)) (clash_ops a b).
Example C109_case_next : t_size (clash_table "x" "next_x") = 2 /\ builder_sample (clash_table "x" "next_x") ["x"; "next_x"] false 1 2 [] = Err KeyError.
Proof. vm_compute. auto. Qed.
Example C109_case_reserved : exists b, builder_sample (clash_table "x" "rewards") ["x"; "rewards"] false 1 2 [] = Ok b /\ dget (bt_rows b) "rewards" = None /\ dget (bt_rows b) "actions" = Some [[7]; [8]].
Proof. eexists. vm_compute. repeat split. Qed.

(** ** C110: legacy dumps *)
(** A dump in which no long episode ends at the very last step: every episode of more than ten steps is
    added once, in order, with its observations, actions and rewards, under its own negative number; but
    the observation that follows the last step is taken one step too late. *)
Theorem C110_episodes_partial : forall (O A R : Type) ro ra rr n (d : dump O A R), dump_of n d ->
  (forall ep, In ep (numbered (du_dones d)) -> long ep = true -> (snd (snd ep) + 1 < n)%nat) ->
  exists calls, fill_table ro ra rr d = (calls, Ok tt) /\ Forall2 (call_of one_too_late ro ra rr d) (filter long (numbered (du_dones d))) calls.
Proof. exact @fill_ok. Qed.
Print Assumptions C110_episodes_partial.
(** The extension of the file may be left out. *)
Theorem C110_file : forall p, ((exists r, p = String.append r ".pickle") -> legacy_path p = p)
  /\ ((forall r, p <> String.append r ".pickle") -> legacy_path p = String.append p ".pickle").
Proof. exact legacy_file. Qed.
Print Assumptions C110_file.
(** A dump that ends with a long episode: loading fails. *)
Theorem C110_last_episode_refuted : forall (O A R : Type) ro ra rr n (d : dump O A R) ep, dump_of n d ->
  In ep (numbered (du_dones d)) -> long ep = true -> (snd (snd ep) + 1)%nat = n -> snd (fill_table ro ra rr d) = Err IndexError.
Proof. exact @fill_fails. Qed.
Print Assumptions C110_last_episode_refuted.
(** Twelve steps of one episode, then two more: the last observation is not the one after the last step. *)
Definition ex_dump : dump Z Z Z :=
  mkDump (repeat false 11 ++ [true; false; true]) (map Z.of_nat (seq 0 28)) (map Z.of_nat (seq 0 14))
         (map (fun i => Z.of_nat i + 1) (seq 0 12) ++ [201; 202]) (map Z.of_nat (seq 0 12) ++ [200; 201]).
Theorem C110_final_observation_refuted : exists n (d : dump Z Z Z) calls, dump_of n d /\ fill_table true true true d = (calls, Ok tt) /\
  ~ Forall2 (call_of after_last true true true d) (filter long (numbered (du_dones d))) calls.
Proof.
  exists 14%nat, ex_dump. eexists. split; [vm_compute; auto 10|]. split; [vm_compute; reflexivity|]. intros F. vm_compute in F.
  inversion F as [|? ? ? ? H _]; subst. destruct H as (_ & (o & Eo & H) & _). vm_compute in Eo. injection Eo as <-. vm_compute in H. discriminate.
Qed.
Print Assumptions C110_final_observation_refuted.
Example C110_case : dump_of 14 ex_dump /\ (forall ep, In ep (numbered (du_dones ex_dump)) -> long ep = true -> (snd (snd ep) + 1 < 14)%nat) /\
  numbered (du_dones ex_dump) = [(1, (0, 11)); (2, (12, 13))]%nat /\ filter long (numbered (du_dones ex_dump)) = [(1, (0, 11))]%nat.
Proof.
  split; [vm_compute; auto 10|]. split; [|vm_compute; auto]. intros ep H. vm_compute in H. destruct H as [<-|[<-|[]]]; vm_compute; [lia|discriminate].
Qed.
Example C110_case_end : let d := mkDump (repeat false 10 ++ [true]) (repeat 0 22) (repeat 0 11) (repeat 0 11) (repeat 0 11) in
  dump_of 11 d /\ In (1, (0, 10))%nat (numbered (du_dones d)) /\ long (1, (0, 10))%nat = true.
Proof. vm_compute. auto 10. Qed.

(** ** C111: importing a saved memory *)
(** The file that is looked for is the one that is restored: "<directory>/<name>.zip", where the name is the
    override or "<name of the target>_export"; if there is no such file nothing is restored. *)
Theorem C111_importer : forall exists_file dir target override name,
  name = match override with Some f => if (f =? "")%string then String.append target "_export" else f | None => String.append target "_export" end ->
  dir <> "" -> (forall r, name <> String "/"%char r) ->
  forall path, ((forall r, dir <> String.append r "/") /\ path = String.append dir (String.append "/" name)
                \/ (exists r, dir = String.append r "/") /\ path = String.append dir name) ->
  importer_restore exists_file dir target override = if exists_file (String.append path ".zip") then Ok path else Err FileNotFoundError.
Proof. exact importer_ok. Qed.
Print Assumptions C111_importer.
Example C111_case : importer_restore (fun f => (f =? "/tmp/run/memory_export.zip")%string) "/tmp/run" "memory" None = Ok "/tmp/run/memory_export" /\
  importer_restore (fun f => (f =? "/tmp/run/memory_export.zip")%string) "/tmp/run" "memory" (Some "other") = Err FileNotFoundError.
Proof. vm_compute. auto. Qed.

(** ** C112: adaptors *)
(** Observations are moved under their new names, and nothing else changes. *)
Theorem C112_dict_obs : forall (S : Type) wn keys out_keys (result : dict string (array S)), NoDup (dkeys result) ->
  NoDup (flat_map (taken wn) keys) -> NoDup out_keys -> List.length keys = List.length out_keys ->
  (forall x, In x (flat_map (taken wn) keys) -> In x (dkeys result)) ->
  exists km b, key_map keys (Some out_keys) = Ok km /\ dict_obs_adaptor wn km result = Ok b /\
    (forall i k o, nth_error keys i = Some k -> nth_error out_keys i = Some o ->
       dget (bt_obs b) o = dget result k /\ dget (bt_next b) o = if wn then dget result (String.append "next_" k) else None) /\
    (forall o, ~ In o out_keys -> dget (bt_obs b) o = None /\ dget (bt_next b) o = None) /\
    (forall x, ~ In x ["observation"; "next_observation"] -> dget (bt_rows b) x = if inb x (flat_map (taken wn) keys) then None else dget result x).
Proof. exact @dict_obs_ok. Qed.
Print Assumptions C112_dict_obs.
Theorem C112_dict_obs_lengths : forall keys out_keys, List.length keys <> List.length out_keys -> key_map keys (Some out_keys) = Err AssertionError.
Proof. exact key_map_bad. Qed.
Print Assumptions C112_dict_obs_lengths.
(** Scaling a column: every element, no other column. *)
Theorem C112_scale : forall (D A : Type) mul key (r : dict string (tensor D A)) t, dget r key = Some t -> exists r', key_scale mul key r = Ok r' /\
  (exists t', dget r' key = Some t' /\ tn_dtype t' = tn_dtype t /\ List.length (tn_data t') = List.length (tn_data t) /\
     forall i x, nth_error (tn_data t) i = Some x -> nth_error (tn_data t') i = Some (mul x)) /\
  (forall k, k <> key -> dget r' k = dget r k).
Proof. exact @scale_ok. Qed.
Print Assumptions C112_scale.
Theorem C112_missing : forall (D A : Type) mul conv (dt : D) key (r : dict string (tensor D A)), dget r key = None ->
  key_scale mul key r = Err KeyError /\ key_cast conv dt key r = Err KeyError.
Proof. exact @missing. Qed.
Print Assumptions C112_missing.
(** Casting a column changes nothing, whatever the dtype. *)
Theorem C112_cast_refuted : forall (D A : Type) conv (dt : D) key (r r' : dict string (tensor D A)), key_cast conv dt key r = Ok r' -> r' = r.
Proof. exact @cast_same. Qed.
Print Assumptions C112_cast_refuted.
Example C112_case : exists r, key_cast (fun (_ : string) x => x) "float32" "images" [("images", mkTensor "uint8" [1; 2])] = Ok r /\
  option_map tn_dtype (dget r "images") = Some "uint8".
Proof. eexists. vm_compute. auto. Qed.
Example C112_case_scale : exists r, key_scale (Z.mul 3) "images" [("images", mkTensor "uint8" [1; 2]); ("x", mkTensor "uint8" [5])] = Ok r /\
  r = [("images", mkTensor "uint8" [3; 6]); ("x", mkTensor "uint8" [5])].
Proof. eexists. vm_compute. auto. Qed.
Example C112_case_obs : exists km b, key_map ["x"] (Some ["features"]) = Ok km /\
  dict_obs_adaptor true km [("x", [[1]]); ("next_x", [[2]]); ("actions", [[3]])] = Ok b /\
  bt_obs b = [("features", [[1]])] /\ bt_next b = [("features", [[2]])] /\ bt_rows b = [("actions", [[3]])].
Proof. do 2 eexists. vm_compute. repeat split. Qed.
