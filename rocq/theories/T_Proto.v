(** * Property C91: --show-func-proto. *)
From Coq Require Import ZArith NArith List Bool String Ascii Lia Permutation Sorted.
From Verif Require Import M_Go P_Go M_Flags M_Kfuncs S_Kfuncs P_Kfuncs M_Proto S_Proto P_Proto T_Kfuncs.
Import ListNotations.
Open Scope string_scope.
Open Scope list_scope.

(** C91 (types): the text of a type determines it.  Partial: for types without qualified pointers and typedefs and without arrays, floats and tags. *)
Theorem C91_type_readable_partial : forall t1 t2 s, plain t1 -> plain t2 -> repr t1 = Some s -> repr t2 = Some s -> same t1 t2.
Proof. exact repr_inj. Qed.
Print Assumptions C91_type_readable_partial.
(** C91 (prototypes): so does the text of a prototype: its name, what it returns, how many parameters it takes, their names and types. *)
Theorem C91_prototype_readable_partial : forall list_params f1 f2 s, plain_func f1 -> plain_func f2 ->
  show_func list_params f1 = Some s -> show_func list_params f2 = Some s -> same_func f1 f2.
Proof. exact func_inj. Qed.
Print Assumptions C91_prototype_readable_partial.
(** Refuted otherwise: a constant pointer is shown as a pointer to a constant, a qualified typedef as if it were not, a double as a float. *)
Theorem C91_lookalikes_refuted : (forall t, qualified t -> repr (TConst (TPtr t)) = repr (TPtr (TConst t))) /\
  (forall n t, repr (TConst (TTypedef n t)) = repr (TTypedef n t)) /\ repr (TFloat "double") = repr (TFloat "float").
Proof. split; [exact const_ptr|split; reflexivity]. Qed.
Print Assumptions C91_lookalikes_refuted.
(** C91: every function whose types have names is shown. *)
Theorem C91_shown : forall list_params f, has_names (bf_ret f) -> Forall (fun p => has_names (snd p)) (bf_params f) -> exists s, show_func list_params f = Some s.
Proof. exact show_total. Qed.
Print Assumptions C91_shown.

(** C91 (listing): in whatever order Go ranges over the map of functions found, the functions are listed by name, each name once; they are exactly
    those that C43 selects with up to 12 parameters in the BTF files searched ... *)
Theorem C91_listed : forall glob syms ms all ord, Permutation ord (find_protos glob syms ms all) ->
  StronglySorted (fun a b => String.ltb (fn_name (kf_func a)) (fn_name (kf_func b)) = true) (shown ord) /\
  forall kf, In kf (shown ord) <-> exists a, the_last glob syms ms 12 a all kf.
Proof. intros glob syms ms all ord H. exact (shown_ok glob syms ms 12 all ord H). Qed.
Print Assumptions C91_listed.
Theorem C91_same_every_time : forall glob syms ms all o1 o2, Permutation o1 (find_protos glob syms ms all) -> Permutation o2 (find_protos glob syms ms all) ->
  shown o1 = shown o2.
Proof. intros glob syms ms all. exact (shown_unique glob syms ms 12 all). Qed.
Print Assumptions C91_same_every_time.
(** ... and the text is the number of functions and then a line for each: its prototype, and [traceable] if it is. *)
Theorem C91_text : forall list_params decl traceable kfuncs s, show_kernel list_params decl traceable kfuncs = Some s ->
  exists ls, s = ("Kernel functions: (total " ++ fmt_d (N.of_nat (List.length kfuncs)) ++ ")" ++ nl ++ String.concat "" ls)%string /\
    Forall2 (fun k x => exists b d, traceable (fn_name (kf_func k)) = Some b /\ show_func list_params (decl k) = Some d /\
               x = (d ++ ";" ++ (if b : bool then " [traceable]" else "") ++ nl)%string) (shown kfuncs) ls.
Proof.
  intros lp decl tr kfs s. unfold show_kernel. destruct (lines lp decl tr (shown kfs)) as [r|] eqn:E; [|discriminate]. intros [= <-].
  destruct (lines_ok _ _ _ _ _ E) as (ss & -> & H). exists ss. split; [reflexivity|exact H].
Qed.
Print Assumptions C91_text.

(** C91 (parameter list): the parameters, separated by commas; with --list-params each on a line of its own after its number and a tab ... *)
Definition newline : string := String (ascii_of_nat 10) "".
Fixpoint numbered (list_params : bool) (i : nat) (ds : list string) : list string :=
  match ds with [] => [] | d :: ds' => ((if list_params then newline ++ fmt_d (N.of_nat i) ++ ":" ++ String (ascii_of_nat 9) "" else "") ++ d)%string :: numbered list_params (S i) ds' end.
Lemma show_params_numbered list_params : forall ps i s, show_params list_params i ps = Some s ->
  exists ds, Forall2 (fun p d => show_param p = Some d) ps ds /\ s = ((match i, ps with S _, _ :: _ => ", " | _, _ => "" end) ++ String.concat ", " (numbered list_params i ds))%string.
Proof.
  induction ps as [|p ps IH]; intros i s; cbn [show_params]; [intros [= <-]; exists []; split; [constructor|destruct i; reflexivity]|].
  destruct (show_param p) as [d|] eqn:Ep; [|discriminate]. destruct (show_params list_params (S i) ps) as [r|] eqn:Er; [|discriminate]. intros [= <-].
  destruct (IH _ _ Er) as (ds & F & ->). exists (d :: ds). split; [constructor; assumption|]. cbn [numbered].
  change nl with newline. change tab with (String (ascii_of_nat 9) "").
  set (h := if list_params then _ else _). f_equal.
  destruct ps as [|q ps]; inversion F as [|? e ? es]; subst; cbn [numbered String.concat append].
  - rewrite !sapp_nil. reflexivity.
  - rewrite !sapp_assoc. reflexivity.
Qed.
Theorem C91_parameter_list : forall list_params ps s, show_params list_params 0 ps = Some s ->
  exists ds, Forall2 (fun p d => show_param p = Some d) ps ds /\ s = String.concat ", " (numbered list_params 0 ds).
Proof. intros lp ps s H. destruct (show_params_numbered lp ps 0 s H) as (ds & F & ->). exists ds. split; [exact F|reflexivity]. Qed.
Print Assumptions C91_parameter_list.
(** ... and the prototype of a BPF program is a line of its own, ended by a semicolon. *)
Theorem C91_program_line : forall list_params f s, print_func list_params f = Some s <-> exists d, show_func list_params f = Some d /\ s = (d ++ ";" ++ newline)%string.
Proof.
  intros lp f s. unfold print_func. destruct (show_func lp f) as [d|]; cbn [option_map].
  - split; [intros [= <-]; exists d; split; reflexivity|intros (e & [= <-] & ->); reflexivity].
  - split; [discriminate|intros (e & X & _); discriminate].
Qed.
Print Assumptions C91_program_line.

(** C91 (modules): the kernel's own functions, and: if the first pattern is the name of a module's symbol, those of that module; else those of the
    modules listed by the user or beginning a pattern. *)
Theorem C91_modules_partial : forall mods sym_mod kmods fs x, In x (proto_kmods mods sym_mod kmods fs) <->
  x = "vmlinux" \/ (exists m, m <> "" /\ sym_mod (hd "" fs) = Some m /\ x = m) \/
  ((forall m, sym_mod (hd "" fs) = Some m -> m = "") /\ (In x kmods \/ (x <> "" /\ exists f, In f fs /\ first_mod mods f = Some x))).
Proof. exact proto_kmods_iff. Qed.
Print Assumptions C91_modules_partial.
(** Refuted: with a module's symbol as first pattern the modules listed by the user are not searched, although they are when it comes to tracing ... *)
Theorem C91_listed_modules_ignored_refuted : forall mods sym_mod kmods f fs m x, sym_mod f = Some m -> m <> "" -> In x kmods -> x <> m -> x <> "vmlinux" ->
  ~ In x (proto_kmods mods sym_mod kmods (f :: fs)) /\ In x (prepare mods sym_mod kmods (f :: fs)).
Proof.
  intros mods sym_mod kmods f fs m x Hs Hm Hx H1 H2. split; [|apply prepare_iff; auto]. rewrite proto_kmods_iff. cbn [hd].
  intros [H|[(m' & _ & E & ->)|[H _]]]; [congruence|congruence|]. apply Hm, H, Hs.
Qed.
Print Assumptions C91_listed_modules_ignored_refuted.
(** ... and two modules that sort before "vmlinux" (from the user or the patterns) end the program, although the same patterns can be traced. *)
Theorem C91_two_modules_refuted : forall mods sym_mod kmods fs files a b, (forall m, sym_mod (hd "" fs) = Some m -> m = "") -> a <> b -> In a kmods -> In b kmods ->
  String.ltb a "vmlinux" = true -> String.ltb b "vmlinux" = true -> btfs false files (proto_kmods mods sym_mod kmods fs) = None.
Proof.
  intros mods sym_mod kmods fs files a b Hs Hab Ha Hb La Lb. apply btfs_crash; [apply proto_kmods_iff; auto|]. exists a, b. split; [exact Hab|].
  split; [apply proto_kmods_iff; auto|]. split; [apply proto_kmods_iff; auto|]. auto.
Qed.
Print Assumptions C91_two_modules_refuted.
Example C91_two_modules_demo : let files := ["vmlinux"; "kvm"; "nf_tables"] in
  btfs false files (proto_kmods [] (fun _ => None) ["kvm"; "nf_tables"] ["*"]) = None /\
  btfs false files (prepare [] (fun _ => None) ["kvm"; "nf_tables"] ["*"]) = Some ["vmlinux"; "kvm"; "nf_tables"].
Proof. split; vm_compute; reflexivity. Qed.

Definition ip_rcv : bfn := {| bf_name := "ip_rcv"; bf_ret := TInt "int";
  bf_params := [("skb", TPtr (TStruct "sk_buff")); ("name", TPtr (TPtr (TConst (TInt "char")))); ("len", TTypedef "u32" (TInt "unsigned int")); ("", TVoid)] |}.
Example C91_demo : plain_func ip_rcv /\ show_func false ip_rcv = Some "int ip_rcv(struct sk_buff *skb, const char **name, u32 len, void)" /\
  show_func true ip_rcv = Some ("int ip_rcv(" ++ nl ++ "0:" ++ M_Proto.tab ++ "struct sk_buff *skb, " ++ nl ++ "1:" ++ M_Proto.tab ++ "const char **name, " ++ nl ++ "2:" ++ M_Proto.tab ++ "u32 len, " ++ nl ++ "3:" ++ M_Proto.tab ++ "void" ++ nl ++ ")")%string.
Proof.
  assert (N : forall n, all_chars word_char n = true -> n <> "" -> (existsb (String.eqb n) keywords = false) -> name n).
  { intros n H1 H2 H3. split; [split; assumption|]. intros H. assert (existsb (String.eqb n) keywords = true); [|congruence]. apply existsb_exists. exists n. split; [exact H|apply String.eqb_refl]. }
  assert (I : forall w, In w int_words -> int_name w). { intros w H. exists [w]. split; [discriminate|]. split; [intros v [<-|[]]; exact H|reflexivity]. }
  split; [|split; vm_compute; reflexivity]. split; [apply N; vm_compute; congruence|]. split; [apply P_qual, Q_int, I; cbn; tauto|].
  repeat apply Forall_cons; [..|apply Forall_nil]; (split; cbn [fst snd]; [first [left; reflexivity|right; apply N; vm_compute; congruence]|]).
  - apply P_ptr, P_qual, Q_struct. split; [discriminate|reflexivity].
  - apply P_ptr, P_ptr, P_qual, Q_const, Q_int, I. cbn. tauto.
  - apply P_typedef, N; vm_compute; congruence.
  - apply P_qual, Q_void.
Qed.
Example C91_listing : let ord := rev (find_protos star T_Kfuncs.tab [pat "*" "" "" false false] all_fns) in
  map (fun k => fn_name (kf_func k)) (shown ord) = ["do_exit"; "ip_rcv"] /\
  show_kernel false (fun k => {| bf_name := fn_name (kf_func k); bf_ret := TVoid; bf_params := [] |}) (fun n => Some (String.eqb n "ip_rcv")) ord =
    Some ("Kernel functions: (total 2)" ++ nl ++ "void do_exit();" ++ nl ++ "void ip_rcv(); [traceable]" ++ nl)%string.
Proof. split; vm_compute; reflexivity. Qed.
