(** * PathProofs: strings that end in something *)
From Coq Require Import Lia Ascii.
From Verif Require Import Py.
Open Scope string_scope.
Open Scope nat_scope.
Set Implicit Arguments.

Lemma app_len a b : String.length (String.append a b) = String.length a + String.length b.
Proof. induction a as [|c a IH]; cbn [String.append String.length]; auto. rewrite IH. reflexivity. Qed.
Lemma substring_all s : forall n, String.length s <= n -> String.substring 0 n s = s.
Proof. induction s as [|c s IH]; intros [|n] L; cbn [String.length] in L; try lia; auto. cbn [String.substring]. f_equal. apply IH. lia. Qed.
Lemma substring_end a b : String.substring (String.length a) (String.length b) (String.append a b) = b.
Proof. induction a as [|c a IH]; cbn [String.append String.length]; [apply substring_all; lia|exact IH]. Qed.
Lemma substring_tail s : forall k, k <= String.length s -> exists r, s = String.append r (String.substring k (String.length s - k) s).
Proof.
  induction s as [|c s IH]; intros [|k] L; cbn [String.length] in L; try lia.
  - exists "". reflexivity.
  - exists "". cbn [String.append]. rewrite substring_all; [auto|cbn [String.length]; lia].
  - destruct (IH k) as [r E]; [lia|]. exists (String c r). cbn [String.append String.length String.substring Nat.sub]. f_equal. exact E.
Qed.
Lemma end_iff s e : String.substring (String.length s - String.length e) (String.length e) s = e <-> exists r, s = String.append r e.
Proof.
  split.
  - intros E. destruct (Nat.le_gt_cases (String.length e) (String.length s)) as [L|L].
    + destruct (@substring_tail s (String.length s - String.length e)) as [r Er]; [lia|]. exists r.
      replace (String.length s - (String.length s - String.length e)) with (String.length e) in Er by lia. rewrite E in Er. exact Er.
    + exfalso. replace (String.length s - String.length e) with 0 in E by lia. rewrite substring_all in E by lia. subst. lia.
  - intros [r ->]. rewrite app_len. replace (String.length r + String.length e - String.length e) with (String.length r) by lia. apply substring_end.
Qed.
