From Coq Require Import String.
From Verif Require Import Base BaseProofs StorageModel TextModel LoptModel LoptProofs UtilModel UtilSpec UtilProofs.
Open Scope list_scope.

(** The script goes on exactly if libcare-cc is found in PATH, by a full name *)
Theorem C152_goes_on exec path tmp : fresh exec tmp ->
  (overwritten exec path tmp = true <-> exists p, absolute p /\ stands_for exec path (str "libcare-cc") p).
Proof.
  intros F. rewrite (over_works exec path tmp). split; [apply target_works, F|].
  intros (p & A & S). destruct (target_abs exec path tmp p S A) as [-> X]. exact X.
Qed.
Print Assumptions C152_goes_on.

(** Then cc runs that libcare-cc, and so does each of gcc, g++ and c++ that is in /usr/bin *)
Theorem C152_wrapped exec path tmp n : fresh exec tmp -> overwritten exec path tmp = true -> replaced exec n ->
  exists p, stands_for exec path (str "libcare-cc") p /\ runs_after exec path tmp n = Some p.
Proof.
  intros F O R. pose proof (proj1 (over_works exec path tmp) O) as X. destruct (target_works exec path tmp F X) as (p & A & S).
  exists p. split; [exact S|]. destruct (target_abs exec path tmp p S A) as [T _]. rewrite <- T. apply after_link; assumption.
Qed.
Print Assumptions C152_wrapped.

(** Every other command is what it was *)
Theorem C152_others exec path tmp n : fresh exec tmp -> ~ In 47 n -> ~ replaced exec n ->
  forall p, runs_after exec path tmp n = Some p <-> stands_for exec path n p.
Proof. intros F N R p. rewrite (after_same exec path tmp F n N R). apply lookup_stands. Qed.
Print Assumptions C152_others.

(** A machine with cc and gcc in /usr/bin and the tools in /opt/kp *)
Definition EXEC (p : text) : bool := existsb (list_eqb p) [str "/usr/bin/cc"; str "/usr/bin/gcc"; str "/usr/bin/make"; str "/opt/kp/libcare-cc"; str "/opt/llvm/g++"].
Definition PATH := [str "/opt/llvm"; str "/usr/bin"; str "/opt/kp"].
Definition TMP := str "/tmp/tmp.1".
Lemma fresh_case : fresh EXEC TMP.
Proof.
  intros r. destruct (EXEC (TMP ++ 47 :: r)) eqn:E; [|reflexivity]. unfold EXEC in E. apply existsb_exists in E. destruct E as (x & I & E). apply leq in E. cbn [In] in I.
  destruct I as [<-|[<-|[<-|[<-|[<-|[]]]]]]; discriminate E.
Qed.
Example C152_case : fresh EXEC TMP /\ overwritten EXEC PATH TMP = true /\ replaced EXEC (str "gcc") /\
  map (runs_after EXEC PATH TMP) [str "cc"; str "gcc"; str "make"; str "c++"] = [Some (str "/opt/kp/libcare-cc"); Some (str "/opt/kp/libcare-cc"); Some (str "/usr/bin/make"); None] /\
  overwritten EXEC [str "/usr/bin"] TMP = false.
Proof.
  split; [exact fresh_case|]. split; [vm_compute; reflexivity|]. split; [split; [right; left; reflexivity|right; vm_compute; reflexivity]|]. split; vm_compute; reflexivity.
Qed.

(** A compiler that is not in /usr/bin is not replaced, and the script goes on *)
Theorem C152_elsewhere_refuted : exists exec path tmp n p, fresh exec tmp /\ overwritten exec path tmp = true /\ compiler n /\
  stands_for exec path n p /\ runs_after exec path tmp n = Some p /\ ~ stands_for exec path (str "libcare-cc") p.
Proof.
  exists EXEC, PATH, TMP, (str "g++"), (str "/opt/llvm/g++"). split; [exact fresh_case|]. split; [vm_compute; reflexivity|]. split; [right; right; left; reflexivity|].
  split; [apply lookup_stands; vm_compute; reflexivity|]. split; [vm_compute; reflexivity|]. intros S. apply lookup_stands in S. vm_compute in S. discriminate.
Qed.
Print Assumptions C152_elsewhere_refuted.

(** With no cc before there is one afterwards *)
Theorem C152_new_cc_refuted : exists exec path tmp p, fresh exec tmp /\ overwritten exec path tmp = true /\ (forall q, ~ stands_for exec path (str "cc") q) /\
  runs_after exec path tmp (str "cc") = Some p.
Proof.
  exists EXEC, [str "/opt/kp"], TMP, (str "/opt/kp/libcare-cc"). split; [exact fresh_case|]. split; [vm_compute; reflexivity|].
  split; [|vm_compute; reflexivity]. intros q S. apply lookup_stands in S. vm_compute in S. discriminate.
Qed.
Print Assumptions C152_new_cc_refuted.
