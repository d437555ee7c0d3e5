From Coq Require Import String.
From Verif Require Import Base BaseProofs StorageModel StorageProofs TextModel TextSpec TextProofs ParseModel ParseProofs GenComm UnitSpec UnitProofs.
Open Scope list_scope.

Record fits (a : parch) (sp : bool) (fw : text) (ows dws : list text) : Prop := {
  f_fw : fw = pa_func a;
  f_cold : sp = true -> pa_cold a = true;
  f_fword : GenComm.word fw;
  f_fobj : existsb (same fw) (pa_objs a) = false;
  f_ow : forall w, In w ows -> GenComm.word w /\ existsb (same w) (pa_objs a) = true /\ w <> pa_func a;
  f_dw : forall w, In w dws -> GenComm.word w /\ prefix_of [35] w = false /\ prefix_of [47] w = false /\ find_ctype w = None /\ existsb (same w) (pa_data a) = true;
  f_text : existsb (same (str ".text")) (pa_data a) = false;
  f_section : existsb (same (str ".section")) (pa_data a) = false }.
Lemma compilers_fit a sp fw ows dws : In (a, sp, fw, ows, dws) compilers -> fits a sp fw ows dws.
Proof.
  intros I. cbn [In compilers] in I. destruct I as [I|[I|[I|[I|[]]]]]; injection I as <- <- <- <- <-; (split;
  [reflexivity|intros E; first [reflexivity|discriminate E]|wordlit|vm_compute; reflexivity
  |intros w I; cbn [In] in I; repeat (destruct I as [<-|I]; [split; [wordlit|split; [vm_compute; reflexivity|discriminate]]|]); destruct I
  |intros w I; cbn [In map] in I; repeat (destruct I as [<-|I]; [split; [wordlit|split; [reflexivity|split; [reflexivity|split; vm_compute; reflexivity]]]|]); destruct I
  |vm_compute; reflexivity|vm_compute; reflexivity]).
Qed.

Section Units.
Variable a : parch.
Variable fw : text.
Variable ows dws : list text.
Variable sp : bool.
Hypothesis A : fits a sp fw ows dws.
Notation typed := (typed a).
Notation ok := (u_ok sp fw ows dws).
Lemma code_not_data x : code_section x -> is_data_def a (l_text x) = false.
Proof.
  intros ([S|(z & S)] & _); unfold is_data_def; rewrite S.
  - change (str "	.text") with (9 :: str ".text" ++ []). rewrite one_token; [|wordlit|discriminate]. exact (f_text _ _ _ _ _ A).
  - change (str "	.section	" ++ z) with (9 :: str ".section" ++ 9 :: z). rewrite one_token; [|wordlit|intros c r' [= <- _]; cbn; tauto]. exact (f_section _ _ _ _ _ A).
Qed.
Lemma gl_lines g n gl : name_ok n -> Forall typed gl -> globl_lines g n gl -> Gl g n gl.
Proof. intros N F G. destruct g; cbn [globl_lines Gl] in *; [|exact G]. destruct G as (x & -> & S). exists x. split; [reflexivity|]. inversion F; subst. apply (k_globl a); assumption. Qed.
Lemma al_lines al : Forall typed al -> Forall align_line al -> Forall Kalign al.
Proof. intros F G. rewrite Forall_forall in *. intros x I. apply (k_align a); auto. Qed.
(** What the lines of units are *)
Lemma fun_shape g n ls : name_ok n -> Forall typed ls -> function_lines fw g n ls \/ (sp = true /\ cold_function_lines fw g n ls) ->
  exists sec al gl ty lb tail, ls = sec :: al ++ gl ++ ty :: lb :: tail /\ Ksec true sec /\ Forall Kalign al /\ Gl g n gl /\ Ktype n fw ty /\ Klabel a n lb /\ closes a n tail /\ is_data_def a (l_text sec) = false.
Proof.
  intros N F [(sec & al & gl & ty & lb & body & sz & z & -> & S1 & S2 & S3 & S4 & S5 & S6 & S7)|(Sp & sec & al & gl & ty & lb & body & tyc & body2 & sz & body3 & szc & e & z & z' & -> & S1 & S2 & S3 & S4 & S5 & S6 & Nc & Fe & S7 & S8 & S9)].
  - exists sec, al, gl, ty, lb, (body ++ [sz]).
    inversion F as [|? ? T1 F1]; subst. apply Forall_app in F1. destruct F1 as (T2 & F2). apply Forall_app in F2. destruct F2 as (T3 & F3). inversion F3 as [|? ? T4 F4]; subst. inversion F4 as [|? ? T5 F5]; subst. apply Forall_app in F5. destruct F5 as (_ & F6). inversion F6 as [|? ? T7 _]; subst.
    split; [reflexivity|]. split; [apply (k_code a); assumption|]. split; [apply al_lines; assumption|]. split; [apply gl_lines; assumption|]. split; [apply (k_type a); auto; apply (f_fword _ _ _ _ _ A)|].
    split; [apply k_label; assumption|]. split; [|apply code_not_data, S1]. apply (closes_plain a); [exact S6|apply (k_size a n z); assumption].
  - pose proof (f_cold _ _ _ _ _ A Sp) as Pc. clear Sp. exists sec, al, gl, ty, lb, (body ++ tyc :: body2 ++ sz :: body3 ++ [szc]).
    inversion F as [|? ? T1 F1]; subst. apply Forall_app in F1. destruct F1 as (T2 & F2). apply Forall_app in F2. destruct F2 as (T3 & F3). inversion F3 as [|? ? T4 F4]; subst. inversion F4 as [|? ? T5 F5]; subst. apply Forall_app in F5. destruct F5 as (_ & F6). inversion F6 as [|? ? T7 F7]; subst.
    apply Forall_app in F7. destruct F7 as (_ & F8). inversion F8 as [|? ? T8 F9]; subst. apply Forall_app in F9. destruct F9 as (_ & F10). inversion F10 as [|? ? T9 _]; subst.
    split; [reflexivity|]. split; [apply (k_code a); assumption|]. split; [apply al_lines; assumption|]. split; [apply gl_lines; assumption|]. split; [apply (k_type a); auto; apply (f_fword _ _ _ _ _ A)|].
    split; [apply k_label; assumption|]. split; [|apply code_not_data, S1]. apply (closes_cold a fw (f_fw _ _ _ _ _ A)); [exact Pc|exact S6|apply (k_typec a fw n e); auto; apply (f_fword _ _ _ _ _ A)|apply (k_size a n z); assumption|apply (k_sizec a n e z'); assumption].
Qed.
Lemma var_shape g n ls : name_ok n -> Forall typed ls -> variable_lines ows dws g n ls ->
  exists gl sec al ty sz lb data ow, ls = (gl ++ sec ++ al ++ [ty; sz; lb]) ++ data /\ Gl g n gl /\ (sec = [] \/ exists x, sec = [x] /\ Ksec false x) /\ Forall Kalign al /\ Ktype n ow ty /\ ow <> pa_func a /\ existsb (same ow) (pa_objs a) = true
    /\ Ksize n sz /\ Klabel a n lb /\ sc_exec (l_sect lb) = false /\ Forall (Kdata a) data.
Proof.
  intros N F (gl & sec & al & ty & sz & lb & data & ow & z & -> & S1 & S2 & S3 & Iw & S4 & S5 & S6 & S7 & S8). exists gl, sec, al, ty, sz, lb, data, ow.
  apply Forall_app in F. destruct F as (T1 & F1). apply Forall_app in F1. destruct F1 as (T2 & F2). apply Forall_app in F2. destruct F2 as (T3 & F3). inversion F3 as [|? ? T4 F4]; subst. inversion F4 as [|? ? T5 F5]; subst. inversion F5 as [|? ? T6 T7]; subst.
  destruct (f_ow _ _ _ _ _ A ow Iw) as (Ww & Ow & Nw).
  split; [rewrite <- !app_assoc; reflexivity|]. split; [apply gl_lines; assumption|]. split. { destruct S2 as [->|(x & -> & S2)]; [left; reflexivity|right; exists x; split; [reflexivity|]]. inversion T2; subst. apply (k_datasec a); assumption. }
  split; [apply al_lines; assumption|]. split; [apply (k_type a); assumption|]. split; [exact Nw|]. split; [exact Ow|]. split; [apply (k_size a n z); assumption|]. split; [apply k_label; assumption|]. split; [exact S7|].
  rewrite Forall_forall in *. intros x I. destruct (S8 x I) as (w & c & y & Id & N1 & N2 & N3 & S). destruct (f_dw _ _ _ _ _ A w Id) as (W & P1 & P2 & P3 & P4). apply (k_data a w (c :: y)); auto.
  intros q E. cbn [skip_blanks] in E. change (isblank 9) with true in E. cbn iota in E. unfold isblank in E. apply Z.eqb_neq in N2, N3. rewrite N2, N3 in E. cbn [orb] in E. injection E as E _. congruence.
Qed.
Lemma nonempty_fun g n ls : function_lines fw g n ls \/ (sp = true /\ cold_function_lines fw g n ls) -> exists x r, ls = x :: r.
Proof. intros [(sec & al & gl & ty & lb & body & sz & z & -> & _)|(_ & sec & al & gl & ty & lb & body & tyc & body2 & sz & body3 & szc & e & z & z' & -> & _)]; eauto. Qed.

(** The end of a variable *)
Definition all_lines (us : list unit_) := concat (map u_lines us).
Lemma vl_stop us n g k : Forall ok us -> Forall typed (all_lines us) -> ~ In n (map u_name us) -> (length (all_lines us) <= k)%nat ->
  exists g', var_lines a k n g (all_lines us) = Ok (0%nat, g') /\ match us with UVar _ _ _ :: _ => True | _ => g' = g end.
Proof.
  intros F T N L. destruct us as [|u us]; [exists g; destruct k; auto|]. inversion F as [|? ? (Nu & U) F']; subst. unfold all_lines in *. cbn [map concat] in *. apply Forall_app in T. destruct T as (Tu & _).
  destruct u as [gu nu ls|gu nu ls]; cbn [u_name u_lines] in *.
  - destruct (fun_shape gu nu ls Nu Tu U) as (sec & al & gl & ty & lb & tail & -> & K1 & K2 & K3 & K4 & K5 & K6 & D). destruct k as [|k]; [cbn in L; lia|].
    set (r := concat (map u_lines us)) in *. exists g. split; [|reflexivity].
    replace ((sec :: al ++ gl ++ ty :: lb :: tail) ++ r) with (sec :: al ++ gl ++ ty :: (lb :: tail ++ r)) by (cbn; rewrite <- !app_assoc; reflexivity).
    cbn [var_lines]. rewrite (variable_start_fun a fw gu nu); auto; [|apply (f_fobj _ _ _ _ _ A)]. cbn [rbind]. rewrite D. reflexivity.
  - destruct (var_shape gu nu ls Nu Tu U) as (gl & sec & al & ty & sz & lb & data & ow & -> & K1 & K2 & K3 & K4 & K5 & K6 & K7 & K8 & K9 & K10).
    set (r := concat (map u_lines us)) in *.
    destruct (variable_start_var a gu nu gl sec al ow ty sz lb (data ++ r) K6 K1 K2 K3 K4 K7 K8 K9) as (nm & En & V).
    replace (((gl ++ sec ++ al ++ [ty; sz; lb]) ++ data) ++ r) with (gl ++ sec ++ al ++ ty :: sz :: lb :: data ++ r) in * by (rewrite <- !app_assoc; reflexivity).
    exists gu. split; [|exact I]. destruct k as [|k]. { rewrite !app_length in L. cbn in L. lia. }
    destruct (gl ++ sec ++ al ++ ty :: sz :: lb :: data ++ r) as [|y q] eqn:E. { apply app_eq_nil in E. destruct E as (_ & E). apply app_eq_nil in E. destruct E as (_ & E). apply app_eq_nil in E. destruct E as (_ & E). discriminate. }
    cbn [var_lines]. rewrite V. cbn [rbind]. rewrite En. assert (Nn : n <> nu) by (intros ->; apply N; left; reflexivity). apply same_false in Nn. rewrite Nn. reflexivity.
Qed.
Lemma add_new bs b : (forall c, In c bs -> txt (b_name c) <> txt (b_name b)) -> cblock_add bs b = Ok (bs ++ [b]).
Proof.
  intros H. unfold cblock_add. replace (find_by_name bs (txt (b_name b))) with (@None cblock); [rewrite andb_false_r; reflexivity|]. symmetry. unfold find_by_name.
  destruct (find _ bs) as [c|] eqn:E; [|reflexivity]. apply find_some in E. destruct E as (I & S). apply same_spec in S. exfalso. exact (H c I S).
Qed.
(** One unit *)
Lemma one_unit i bs u us x r : Forall ok (u :: us) -> Forall typed (all_lines (u :: us)) -> ~ In (u_name u) (map u_name us) -> (forall c, In c bs -> txt (b_name c) <> u_name u) -> all_lines (u :: us) = x :: r ->
  exists b, one_block a i bs x r = Ok (u_lines u, all_lines us, bs ++ [b]) /\ b_start b = i /\ b_end b = (i + length (u_lines u))%nat /\ txt (b_name b) = u_name u /\
    match u, us with
    | UFun g _ _, _ => b_type b = BFunc /\ b_globl b = g
    | UVar _ _ _, UVar _ _ _ :: _ => b_type b = BVar
    | UVar g _ _, _ => b_type b = BVar /\ b_globl b = g
    end.
Proof.
  intros F T N Nb E. inversion F as [|? ? (Nu & U) F']; subst. unfold all_lines in T, E. cbn [map concat] in T, E. apply Forall_app in T. destruct T as (Tu & Tr). fold (all_lines us) in *.
  unfold one_block. rewrite <- E. destruct u as [g n ls|g n ls]; cbn [u_name u_lines] in *.
  - destruct (fun_shape g n ls Nu Tu U) as (sec & al & gl & ty & lb & tail & Els & K1 & K2 & K3 & K4 & K5 & K6 & D).
    assert (Ex : x = sec) by (subst ls; cbn in E; congruence). subst x. rewrite (ne_eqb (l_text sec)) by apply K1.
    destruct (function_start_fun a fw (f_fw _ _ _ _ _ A) g n sec al gl ty lb (tail ++ all_lines us) K1 K2 K3 K4 K5) as (nm & En & S).
    assert (E2 : ls ++ all_lines us = sec :: al ++ gl ++ ty :: lb :: tail ++ all_lines us) by (subst ls; cbn; rewrite <- !app_assoc; reflexivity).
    rewrite <- E2 in S. rewrite S. cbn [rbind fst snd]. rewrite En. pose proof (func_lines_fun a fw (f_fw _ _ _ _ _ A) g n sec al gl ty lb tail (all_lines us) K1 K2 K3 K4 K5 K6) as FL. rewrite <- Els in FL. rewrite FL. cbn [rbind].
    rewrite add_new by (cbn [new_block b_name]; rewrite En; exact Nb). cbn [rbind]. eexists. split; [reflexivity|]. cbn. auto.
  - destruct (var_shape g n ls Nu Tu U) as (gl & sec & al & ty & sz & lb & data & ow & Els & K1 & K2 & K3 & K4 & K5 & K6 & K7 & K8 & K9 & K10).
    assert (E2 : ls ++ all_lines us = gl ++ sec ++ al ++ ty :: sz :: lb :: data ++ all_lines us) by (subst ls; rewrite <- !app_assoc; reflexivity).
    assert (Nx : l_text x <> []).
    { rewrite E2 in E. destruct gl as [|y gl]; [|destruct g; cbn [Gl] in K1; [|discriminate]; destruct K1 as (y' & E1 & K1); injection E1 as -> _; cbn in E; injection E as <- _; apply K1].
      cbn [app] in E. destruct K2 as [->|(y & -> & K2)]; cbn [app] in E; [|injection E as <- _; apply K2].
      destruct al as [|y al]; cbn [app] in E; [injection E as <- _; apply K4|]. inversion K3 as [|? ? (_ & Ny) _]; subst. injection E as <- _. exact Ny. }
    rewrite (ne_eqb _ Nx). destruct (function_start_var a g n gl sec al ow ty (sz :: lb :: data ++ all_lines us) K5 K1 K2 K3 K4) as (nm0 & S0). rewrite E2, S0. cbn [rbind fst].
    destruct (variable_start_var a g n gl sec al ow ty sz lb (data ++ all_lines us) K6 K1 K2 K3 K4 K7 K8 K9) as (nm & En & V). rewrite V. cbn [rbind]. rewrite En.
    set (pre := gl ++ sec ++ al ++ [ty; sz; lb]) in *. assert (E3 : gl ++ sec ++ al ++ ty :: sz :: lb :: data ++ all_lines us = pre ++ data ++ all_lines us) by (unfold pre; rewrite <- !app_assoc; reflexivity).
    assert (Lp : (1 <= length pre)%nat) by (unfold pre; rewrite !app_length; cbn; lia).
    destruct (vl_stop us n g (length (data ++ all_lines us) - length data + (length pre - 1)) F' Tr N) as (g' & Vs & Hg); [rewrite app_length; lia|].
    assert (VL : var_lines a (length (gl ++ sec ++ al ++ ty :: sz :: lb :: data ++ all_lines us)) n false (gl ++ sec ++ al ++ ty :: sz :: lb :: data ++ all_lines us) = Ok (length ls, g')).
    { rewrite E3 in *. rewrite app_length. destruct (length pre + length (data ++ all_lines us))%nat as [|k] eqn:Ek; [lia|]. destruct (pre ++ data ++ all_lines us) as [|y q] eqn:Ep; [destruct pre; [cbn in Lp; lia|discriminate]|].
      cbn [var_lines]. rewrite V. cbn [rbind]. rewrite En, same_refl. cbn [negb]. rewrite <- Ep, skipn_app, skipn_all, Nat.sub_diag. cbn [skipn app]. rewrite vl_data; [|exact K10|rewrite app_length in Ek; lia].
      replace (k - length data)%nat with (length (data ++ all_lines us) - length data + (length pre - 1))%nat by (rewrite app_length in *; lia). rewrite Vs. cbn [rbind fst snd]. rewrite Els, app_length. do 2 f_equal. lia. }
    rewrite VL. cbn [rbind fst snd]. rewrite add_new by (cbn [new_block b_name]; rewrite En; exact Nb). cbn [rbind]. rewrite <- E2, firstn_app, skipn_app, firstn_all, skipn_all, Nat.sub_diag. cbn [firstn skipn app]. rewrite app_nil_r.
    eexists. split; [reflexivity|]. cbn. split; [reflexivity|]. split; [reflexivity|]. split; [exact En|]. destruct us as [|[? ? ?|? ? ?] us]; auto.
Qed.
Lemma units_cut : forall us i bs k, Forall ok us -> Forall typed (all_lines us) -> NoDup (map u_name us) -> (forall c, In c bs -> ~ In (txt (b_name c)) (map u_name us)) -> (length (all_lines us) <= k)%nat ->
  exists new, blocks_from a k i bs (all_lines us) = Ok (all_lines us, bs ++ new) /\ cut_as i us new.
Proof.
  induction us as [|u us IH]; intros i bs k F T ND Nb L.
  - exists []. rewrite app_nil_r. split; [destruct k; reflexivity|constructor].
  - cbn [map] in ND. inversion ND as [|? ? Nu ND']; subst. inversion F as [|? ? Ou F']; subst.
    assert (NE : exists x r, all_lines (u :: us) = x :: r).
    { destruct Ou as (_ & U). unfold all_lines. cbn [map concat]. destruct u as [g n ls|g n ls]; cbn [u_lines].
      - destruct (nonempty_fun g n ls U) as (x & r & ->). cbn [app]. eauto.
      - destruct U as (gl & sec & al & ty & sz & lb & data & ow & z & -> & _). destruct gl; [destruct sec; [destruct al|]|]; cbn; eauto. }
    destruct NE as (x & r & E). destruct (one_unit i bs u us x r F T Nu) as (b & O & B1 & B2 & B3 & B4); [intros c I X; apply (Nb c I); left; congruence|exact E|].
    assert (Tl : Forall typed (all_lines us)) by (unfold all_lines in T |- *; cbn [map concat] in T; apply Forall_app in T; apply T).
    assert (Ll : (1 <= length (u_lines u))%nat /\ length (all_lines (u :: us)) = (length (u_lines u) + length (all_lines us))%nat).
    { unfold all_lines. cbn [map concat]. rewrite app_length. split; [|reflexivity]. destruct Ou as (_ & U). destruct u as [g n ls|g n ls]; cbn [u_lines].
      - destruct (nonempty_fun g n ls U) as (x' & r' & ->). cbn. lia.
      - destruct U as (gl & sec & al & ty & sz & lb & data & ow & z & -> & _). rewrite !app_length. cbn. lia. }
    destruct k as [|k]; [lia|]. destruct (IH (i + length (u_lines u))%nat (bs ++ [b]) k F' Tl ND') as (new & Bn & Cn).
    { intros c I. apply in_app_or in I. destruct I as [I|[<-|[]]]; [intros X; apply (Nb c I); right; exact X|rewrite B3; exact Nu]. } { lia. }
    exists (b :: new). rewrite E. cbn [blocks_from]. rewrite O. cbn [rbind]. rewrite Bn. cbn [rbind fst snd]. rewrite <- app_assoc. split; [do 2 f_equal; rewrite <- E; reflexivity|]. constructor; assumption.
Qed.
End Units.
