(** What a compiler writes for functions and variables. *)
From Coq Require Import String.
From Verif Require Import Base StorageModel TextModel TextSpec ParseModel.
Open Scope list_scope.

(** For each machine: whether cold parts of functions are known, what .type says of functions and of variables, and the directives that hold a variable's bytes. *)
Definition compilers : list (parch * bool * list Z * list (list Z) * list (list Z)) :=
  [(px86, true, str "@function", [str "@object"; str "@gnu_unique_object"], map str [".byte"; ".value"; ".short"; ".word"; ".long"; ".int"; ".4byte"; ".quad"; ".ascii"; ".asciz"; ".string"; ".zero"; ".float"; ".single"; ".double"; ".uleb128"; ".sleb128"]%string);
   (parm, false, str "%function", [str "%object"; str "%tls_object"; str "%gnu_unique_object"], map str [".byte"; ".1byte"; ".dc.b"; ".hword"; ".short"; ".2byte"; ".dc"; ".dc.w"; ".value"; ".word"; ".4byte"; ".long"; ".int"; ".dc.l"; ".dc.a"; ".xword"; ".quad"; ".8byte"; ".octa"; ".double"; ".dc.d"; ".float"; ".single"; ".dc.s"; ".ascii"; ".asciz"; ".string"; ".string8"; ".string16"; ".string32"; ".string64"; ".zero"; ".fill"; ".space"; ".skip"; ".uleb128"; ".sleb128"]%string);
   (ploong, true, str "@function", [str "@object"; str "@gnu_unique_object"], map str [".byte"; ".half"; ".value"; ".word"; ".long"; ".4byte"; ".dword"; ".quad"; ".8byte"; ".ascii"; ".asciz"; ".string"; ".space"; ".zero"; ".uleb128"; ".sleb128"]%string);
   (priscv, true, str "@function", [str "@object"; str "@gnu_unique_object"], map str [".byte"; ".half"; ".short"; ".2byte"; ".word"; ".long"; ".4byte"; ".dword"; ".quad"; ".8byte"; ".asciz"; ".string"; ".zero"; ".uleb128"; ".sleb128"]%string)].
(** Names: no delimiter in them, not the word of a directive, no digit or comment sign first, nothing like .LCOLD or .LHOT in them. *)
Definition name_ok (n : list Z) : Prop :=
  (exists c r, n = c :: r /\ c <> 34 /\ c <> 35 /\ c <> 47 /\ (c < 48 \/ 57 < c))
  /\ Forall (fun d => ~ In d asm_delims) n
  /\ ~ In n (map str [".align"; ".p2align"; ".type"; ".comm"; ".size"; ".weak"; ".text"; ".data"; ".bss"; ".section"; ".pushsection"; ".popsection"; ".previous"; ".subsection"; ".globl";
                      ".global"; ".local"; ".hidden"; ".protected"; ".internal"; ".set"; ".kpgensrc_flags"]%string)
  /\ (forall u v, n <> u ++ str ".LCOLD" ++ v) /\ (forall u v, n <> u ++ str ".LHOT" ++ v).
(** Lines *)
Definition says (t : list Z) (x : line) : Prop := l_text x = t.
Definition align_line (x : line) : Prop := exists z, says (str "	.align	" ++ z) x \/ says (str "	.p2align	" ++ z) x.
Definition globl_lines (g : bool) (n : list Z) (ls : list line) : Prop := if g then exists x, ls = [x] /\ says (str "	.globl	" ++ n) x else ls = [].
Definition code_section (x : line) : Prop := (says (str "	.text") x \/ exists z, says (str "	.section	" ++ z) x) /\ sc_exec (l_sect x) = true.
Definition data_section (x : line) : Prop := (says (str "	.data") x \/ says (str "	.bss") x \/ exists z, says (str "	.section	" ++ z) x) /\ sc_exec (l_sect x) = false.
(** A function: section, alignment, .globl, .type, label, instructions, .size. *)
Definition function_lines (fw : list Z) (g : bool) (n : list Z) (ls : list line) : Prop :=
  exists sec al gl ty lb body sz z, ls = sec :: al ++ gl ++ ty :: lb :: body ++ [sz]
    /\ code_section sec /\ Forall align_line al /\ globl_lines g n gl /\ says (str "	.type	" ++ n ++ str ", " ++ fw) ty /\ says (n ++ str ":") lb
    /\ Forall (fun x => ~ In (l_type x) [DType; DSize; DGlobl; DKpflags]) body /\ says (str "	.size	" ++ n ++ str ", " ++ z) sz.
(** A function whose unlikely part is in another section: that part has a .type and a .size line of its own, the latter behind the function's. *)
Definition cold_function_lines (fw : list Z) (g : bool) (n : list Z) (ls : list line) : Prop :=
  exists sec al gl ty lb body tyc body2 sz body3 szc e z z', ls = sec :: al ++ gl ++ ty :: lb :: body ++ tyc :: body2 ++ sz :: body3 ++ [szc]
    /\ code_section sec /\ Forall align_line al /\ globl_lines g n gl /\ says (str "	.type	" ++ n ++ str ", " ++ fw) ty /\ says (n ++ str ":") lb
    /\ Forall (fun x => ~ In (l_type x) [DType; DSize; DGlobl; DKpflags]) (body ++ body2 ++ body3)
    /\ (forall u v, n <> u ++ str ".cold" ++ v) /\ Forall (fun d => ~ In d asm_delims) e
    /\ says (str "	.type	" ++ (n ++ str ".cold" ++ e) ++ str ", " ++ fw) tyc /\ says (str "	.size	" ++ n ++ str ", " ++ z) sz /\ says (str "	.size	" ++ (n ++ str ".cold" ++ e) ++ str ", " ++ z') szc.
(** A variable: .globl, section (left out if it goes on), alignment, .type, .size, label, bytes. *)
Definition variable_lines (ows dws : list (list Z)) (g : bool) (n : list Z) (ls : list line) : Prop :=
  exists gl sec al ty sz lb data ow z, ls = gl ++ sec ++ al ++ ty :: sz :: lb :: data
    /\ globl_lines g n gl /\ (sec = [] \/ exists x, sec = [x] /\ data_section x) /\ Forall align_line al /\ In ow ows /\ says (str "	.type	" ++ n ++ str ", " ++ ow) ty
    /\ says (str "	.size	" ++ n ++ str ", " ++ z) sz /\ says (n ++ str ":") lb /\ sc_exec (l_sect lb) = false
    /\ Forall (fun x => exists w c y, In w dws /\ c <> 58 /\ c <> 32 /\ c <> 9 /\ says (str "	" ++ w ++ str "	" ++ c :: y) x) data.
Inductive unit_ := UFun (g : bool) (n : list Z) (ls : list line) | UVar (g : bool) (n : list Z) (ls : list line).
Definition u_name (u : unit_) := match u with UFun _ n _ | UVar _ n _ => n end.
Definition u_lines (u : unit_) := match u with UFun _ _ ls | UVar _ _ ls => ls end.
Definition u_ok (splits : bool) (fw : list Z) (ows dws : list (list Z)) (u : unit_) : Prop :=
  name_ok (u_name u) /\ match u with UFun g n ls => function_lines fw g n ls \/ (splits = true /\ cold_function_lines fw g n ls) | UVar g n ls => variable_lines ows dws g n ls end.
(** The blocks of the units that follow one another from line [i] on; of a variable followed by another variable nothing is said on whether it is global. *)
Inductive cut_as : nat -> list unit_ -> list cblock -> Prop :=
| cut_nil : forall i, cut_as i [] []
| cut_cons : forall i u us b bs, b_start b = i -> b_end b = (i + length (u_lines u))%nat -> txt (b_name b) = u_name u ->
    match u, us with
    | UFun g _ _, _ => b_type b = BFunc /\ b_globl b = g
    | UVar _ _ _, UVar _ _ _ :: _ => b_type b = BVar
    | UVar g _ _, _ => b_type b = BVar /\ b_globl b = g
    end ->
    cut_as (i + length (u_lines u)) us bs -> cut_as i (u :: us) (b :: bs).
