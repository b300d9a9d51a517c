(** * C71-C74: reading and disassembling the kernel. *)
From Coq Require Import List Bool String Ascii ZArith Arith Lia.
From Verif Require Import M_Go M_Kallsyms S_Kallsyms M_Bytes M_Disasm S_Disasm P_Disasm.
Import ListNotations.
Open Scope list_scope.
Open Scope Z_scope.

(** ** C71: reads of kernel memory *)
(** Up to 65528 bytes of readable memory are read as they are, whatever was read before ([buff]). *)
Theorem C71_read_exact_partial : forall m buff a n, 0 <= n <= 65528 -> readable m a (round8 n) ->
  exists l, fst (read_kernel m buff a n) = Some l /\ Z.of_nat (List.length l) = n /\ holds m a l.
Proof. exact read_ok. Qed.
(** More than 65536 are refused. *)
Theorem C71_too_large_refused : forall m buff a n, 65536 < n < 2 ^ 32 - 7 -> fst (read_kernel m buff a n) = None.
Proof. exact read_too_large. Qed.
(** Refuted: 65529 to 65536 bytes, which are allowed, are not read at all: the result is what the previous read left. *)
Theorem C71_full_size_refuted : forall m buff a b n k, 65528 < n <= 65536 -> 0 <= k <= 65528 -> readable m b (round8 k) ->
  exists l r, fst (read_kernel m (snd (read_kernel m buff b k)) a n) = Some (l ++ r) /\ Z.of_nat (List.length l) = k /\ holds m b l.
Proof. exact read_stale_other. Qed.
(** Refuted: one unreadable byte - possibly only in the bytes added by rounding up - and all bytes read are zeros, without an error. *)
Theorem C71_unreadable_refuted : forall m buff a n i, 0 <= n <= 65528 -> 0 <= i < round8 n -> m (a + i) = None ->
  fst (read_kernel m buff a n) = Some (repeat 0 (Z.to_nat n)).
Proof. exact read_zeros. Qed.

(** The reader keeps a buffer of 65536 bytes from the first read to the last, and what is cut out of it lies inside. *)
Theorem C71_buffer : forall m rs, Z.of_nat (List.length (reads m buff0 rs)) = 65536 /\
  forall a n l, 0 <= n < 2 ^ 32 - 7 -> fst (read_kernel m (reads m buff0 rs) a n) = Some l -> Z.of_nat (List.length l) = n.
Proof. exact buffer_kept. Qed.
Print Assumptions C71_buffer.

Definition demo_mem : kmem := fun a => if (4096 <=? a) && (a <? 4101) then Some (a - 4000) else if 8192 <=? a then Some (a mod 256) else None.
Example C71_case : readable demo_mem 8195 (round8 5) /\ fst (read_kernel demo_mem [] 8195 5) = Some [3; 4; 5; 6; 7] /\
  demo_mem (4096 + 5) = None /\ fst (read_kernel demo_mem [] 4096 5) = Some [0; 0; 0; 0; 0].
Proof.
  split; [|repeat split; vm_compute; reflexivity]. intros i Hi. change (round8 5) with 8 in Hi. unfold demo_mem.
  replace (8195 + i <? 4101) with false by (symmetry; apply Z.ltb_ge; lia). rewrite andb_false_r.
  replace (8192 <=? 8195 + i) with true by (symmetry; apply Z.leb_le; lia). discriminate.
Qed.
Example C71_case_stale : 65528 < 65536 <= 65536 /\ 0 <= 8 <= 65528 /\ readable demo_mem 9000 (round8 8).
Proof.
  split; [lia|]. split; [lia|]. intros i Hi. change (round8 8) with 8 in Hi. unfold demo_mem.
  replace (9000 + i <? 4101) with false by (symmetry; apply Z.ltb_ge; lia). rewrite andb_false_r.
  replace (8192 <=? 9000 + i) with true by (symmetry; apply Z.leb_le; lia). discriminate.
Qed.

(** ** C72: the function to disassemble *)
(** A listed name that cannot be an address is the first symbol of that name. *)
Theorem C72_by_name_partial : forall ls ks order kmods globs n, new_kallsyms ls = Some ks -> listed ls n -> plain_name n ->
  exists s, first_named (text_syms ls) s /\ snd s = n /\ parse_disasm ks order kmods globs n = At (fst s) n.
Proof. exact named. Qed.
(** An address, with or without 0x, is taken as it is, with the name of the symbol that contains it. *)
Theorem C72_by_address : forall ls ks order kmods globs a n, new_kallsyms ls = Some ks -> 0 <= a < 2 ^ 64 ->
  (n = hex16 a \/ n = String "0" (String "x" (hex16 a))) ->
  (exists s, In s (text_syms ls) /\ fst s <= a) -> (exists s, In s (text_syms ls) /\ a <= fst s) ->
  exists s, last_at (text_syms ls) s /\ fst s <= a /\ (forall s', In s' (text_syms ls) -> fst s' <= a -> fst s' <= fst s) /\
    parse_disasm ks order kmods globs n = At a (snd s).
Proof. exact addressed. Qed.
(** Refuted: a function whose name could be a number, such as d_add of the kernel's dcache (0xd_add), is not found although it is listed:
    with all symbols above that number - they are, in a 64-bit kernel - the program ends with "Symbol d_add not found". *)
Theorem C72_hex_name_refuted : forall ls ks order globs, new_kallsyms ls = Some ks -> listed ls "d_add"%string ->
  (forall s, In s (text_syms ls) -> 2 ^ 32 < fst s) -> parse_disasm ks order (fun _ => None) globs "d_add"%string = Fatal.
Proof.
  intros ls ks order globs H (s & Hs & _) Hb. apply (hex_name ls ks order globs _ 56029 H).
  - intros X. rewrite X in Hs. contradiction.
  - reflexivity.
  - intros s' Hs'. apply Hb in Hs'. lia.
Qed.
Definition demo_ls : list (list string) := [["ffffffff81000000"; "T"; "d_add"]; ["ffffffff81000040"; "T"; "vfs_read"]; ["ffffffff81000080"; "t"; "vfs_read"]]%string.
Example C72_case : exists ks, new_kallsyms demo_ls = Some ks /\ listed demo_ls "d_add"%string /\ listed demo_ls "vfs_read"%string /\ plain_name "vfs_read" /\
  (forall s, In s (text_syms demo_ls) -> 2 ^ 32 < fst s) /\
  parse_disasm ks [] (fun _ => None) [] "vfs_read" = At 18446744071578845248 "vfs_read" /\
  parse_disasm ks [] (fun _ => None) [] "0xffffffff81000044" = At 18446744071578845252 "vfs_read" /\
  parse_disasm ks [] (fun _ => None) [] "d_add" = Fatal.
Proof.
  assert (E : text_syms demo_ls = [(18446744071578845184, "d_add"); (18446744071578845248, "vfs_read"); (18446744071578845312, "vfs_read")]%string) by (vm_compute; reflexivity).
  unfold listed. rewrite E. eexists. split; [vm_compute; reflexivity|].
  split; [eexists; split; [left; reflexivity|reflexivity]|]. split; [eexists; split; [right; left; reflexivity|reflexivity]|].
  split; [split; [discriminate|exists "v"%char; split; [left; reflexivity|split; [reflexivity|discriminate]]]|].
  split; [intros s [<-|[<-|[<-|[]]]]; reflexivity|]. repeat split; vm_compute; reflexivity.
Qed.

(** ** C73: listings *)
(** The lines of a kernel function's listing: consecutive from its address, each with the bytes at its address and the offset of that
    address; every line is an instruction of the decoder, or the byte 0x82 by itself; all bytes are listed but at most 10 at the end that
    cannot be decoded, unless the program ends with a message because it cannot decode what comes next. *)
Theorem C73_listing : forall dec, sound_decoder dec -> forall kaddr data ls f, 0 <= kaddr -> kaddr + Z.of_nat (List.length data) < 2 ^ 64 ->
  dump dec kaddr data = (ls, f) ->
  exists p r, data = p ++ r /\ lines_tile kaddr 0 ls p /\
    (forall l, In l ls -> if (l_bad l : bool) then l_bytes l = [130]
                          else exists b', dec b' (l_addr l) = Some (List.length (l_bytes l)) /\ firstn (List.length (l_bytes l)) b' = l_bytes l) /\
    (if (f : bool) then (10 < List.length r)%nat /\ dec r (kaddr + Z.of_nat (List.length p)) = None /\ hd 0 r <> 130
     else r = [] \/ (List.length r <= 10)%nat /\ dec r (kaddr + Z.of_nat (List.length p)) = None).
Proof. exact dump_ok. Qed.
(** A program's listing: the functions asked for, in their order, each listed completely at its own address. *)
Theorem C73_program_listing : forall dec, sound_decoder dec -> forall all want fns insns out,
  (forall f, In f fns -> 0 <= snd (fst f) /\ snd (fst f) + Z.of_nat (fn_len f) < 2 ^ 64) ->
  dump_prog dec all want fns insns = Some out ->
  (fn_start fns <= List.length insns)%nat /\
  map fst out = map (fun f => fst (fst f)) (filter (fun f => all || String.eqb (fst (fst f)) want) fns) /\
  (forall k f, nth_error (filter (fun f => all || String.eqb (fst (fst f)) want) fns) k = Some f ->
     exists pre post ls, fns = pre ++ f :: post /\ nth_error out k = Some (fst (fst f), ls) /\
       lines_tile (snd (fst f)) 0 ls (firstn (fn_len f) (skipn (fn_start pre) insns))).
Proof. exact dump_prog_ok. Qed.

(** a small decoder: calls take 5 bytes, 0x82 and 0x06 are not instructions, all others take one *)
Definition demo_dec (b : list Z) (pc : Z) : option nat :=
  match b with
  | [] => None
  | x :: _ => if x =? 232 then if (5 <=? List.length b)%nat then Some 5%nat else None else if (x =? 130) || (x =? 6) then None else Some 1%nat
  end.
Lemma demo_dec_sound : sound_decoder demo_dec.
Proof.
  intros b pc sz. unfold demo_dec. destruct b as [|x b]; [discriminate|]. destruct (x =? 232).
  - destruct (Nat.leb_spec 5 (List.length (x :: b))); [|discriminate]. injection 1 as <-. lia.
  - destruct ((x =? 130) || (x =? 6)); [discriminate|]. injection 1 as <-. cbn. lia.
Qed.
Definition demo_code : list Z := [85; 130; 232; 1; 2; 3; 4; 80; 81; 82; 83; 195; 6; 0].
Example C73_case : map (fun l => (l_addr l, l_off l, l_bytes l, l_bad l)) (fst (dump demo_dec 4096 demo_code)) =
   [(4096, 0, [85], false); (4097, 1, [130], true); (4098, 2, [232; 1; 2; 3; 4], false); (4103, 7, [80], false); (4104, 8, [81], false);
    (4105, 9, [82], false); (4106, 10, [83], false); (4107, 11, [195], false)] /\ snd (dump demo_dec 4096 demo_code) = false /\
  option_map (map fst) (dump_prog demo_dec false "g"%string [("f", 4096, 1%nat); ("g", 8192, 5%nat); ("h", 9000, 1%nat)]%string [85; 232; 1; 2; 3; 4; 195]) = Some ["g"%string].
Proof. repeat split. Qed.

(** ** C74: which instructions are traced *)
(** Traced are exactly the function's instructions from the fifth on (up to the debugging limit), returns excepted, each under its address
    with its offset; [data] without the padding at its end is what is decoded.  Entries of other functions stay. *)
Theorem C74_traced_instructions_partial : forall dec, sound_decoder dec -> forall cnt kaddr data m l, 0 <= kaddr -> kaddr + Z.of_nat (List.length data) < 2 ^ 64 ->
  Decoded dec (trim_tail data) kaddr l -> (4 <= List.length l)%nat ->
  exists m', parse_insns dec cnt kaddr data m = IOk m' /\ forall a x,
    aget Z.eqb a m' = Some x <->
    (exists b, In (a, b) (picked cnt l) /\ b <> [195] /\ x = {| fi_off := a - kaddr; fi_fnip := kaddr |}) \/
    ((forall b, In (a, b) (picked cnt l) -> b = [195]) /\ aget Z.eqb a m = Some x).
Proof. exact insns_ok. Qed.
(** Refuted: a function of one to three instructions crashes the program. *)
Theorem C74_short_function_refuted : forall dec, sound_decoder dec -> forall cnt kaddr data m l, 0 <= kaddr -> kaddr + Z.of_nat (List.length data) < 2 ^ 64 ->
  Decoded dec (trim_tail data) kaddr l -> (1 <= List.length l < 4)%nat -> parse_insns dec cnt kaddr data m = IPanic.
Proof. exact insns_few. Qed.
(** Refuted: of a long function, only instructions in the first 4096 bytes are traced. *)
Theorem C74_long_function_refuted : forall dec, sound_decoder dec -> forall ls ks cnt kaddr data m, new_kallsyms ls = Some ks -> text_syms ls <> [] ->
  (forall s, In s (text_syms ls) -> 0 <= fst s < 2 ^ 64) -> 0 <= kaddr -> kaddr + 4096 < 2 ^ 64 ->
  guess_bytes ks kaddr 0 = Some (Z.of_nat (List.length data)) -> forall m', parse_insns dec cnt kaddr data m = IOk m' ->
  forall a, kaddr + 4096 <= a -> aget Z.eqb a m' = aget Z.eqb a m.
Proof. exact insns_4096. Qed.

Example C74_case : Decoded demo_dec (trim_tail [85; 80; 81; 82; 232; 1; 2; 3; 4; 80; 195; 144; 204]) 4096
    [(4096, [85]); (4097, [80]); (4098, [81]); (4099, [82]); (4100, [232; 1; 2; 3; 4]); (4105, [80]); (4106, [195])] /\
  parse_insns demo_dec 0 4096 [85; 80; 81; 82; 232; 1; 2; 3; 4; 80; 195; 144; 204] [] =
    IOk [(4100, {| fi_off := 4; fi_fnip := 4096 |}); (4105, {| fi_off := 9; fi_fnip := 4096 |})] /\
  Decoded demo_dec (trim_tail [80; 195; 204; 204]) 4096 [(4096, [80]); (4097, [195])] /\ parse_insns demo_dec 0 4096 [80; 195; 204; 204] [] = IPanic.
Proof.
  split; [|split; [reflexivity|split; [|reflexivity]]].
  - apply (decode_all_Decoded demo_dec demo_dec_sound 12 (trim_tail [85; 80; 81; 82; 232; 1; 2; 3; 4; 80; 195; 144; 204]) 4096); [vm_compute; lia|lia|reflexivity].
  - apply (decode_all_Decoded demo_dec demo_dec_sound 12 (trim_tail [80; 195; 204; 204]) 4096); [vm_compute; lia|lia|reflexivity].
Qed.
Example C74_case_long : exists ks, new_kallsyms [["ffffffff81000000"; "T"; "big"]; ["ffffffff81002000"; "T"; "next"]]%string = Some ks /\
  guess_bytes ks 18446744071578845184 0 = Some 4096.
Proof. eexists. split; [vm_compute; reflexivity|vm_compute; reflexivity]. Qed.

Print Assumptions C71_read_exact_partial.
Print Assumptions C71_too_large_refused.
Print Assumptions C71_full_size_refuted.
Print Assumptions C71_unreadable_refuted.
Print Assumptions C72_by_name_partial.
Print Assumptions C72_by_address.
Print Assumptions C72_hex_name_refuted.
Print Assumptions C73_listing.
Print Assumptions C73_program_listing.
Print Assumptions C74_traced_instructions_partial.
Print Assumptions C74_short_function_refuted.
Print Assumptions C74_long_function_refuted.
