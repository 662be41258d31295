(** * P_Show: the description of a network on the terminal (C56-C59, C61) *)
From Verif Require Import RustBase Addr BitManip Net Parse Console ShowNet Spec SpecText SpecIO SpecShow Demo Pf_Show.

(** ** C56: the report *)
Theorem C56_returns : forall (R : Rust) (T : Terminal) (F : family) (n : net F) (a : option (addr F)),
  wf_net n -> (forall x, a = Some x -> valid x) -> snd (show_of F n a) = Ret tt.
Proof. exact c56_returns. Qed.
Print Assumptions C56_returns.
Example C56_returns_ex :
  snd (@show_of debug_env plain V4 (new_with_mask (ip4 10 0 3 0) (ip4 255 255 255 255)) (Some (ip4 10 0 3 1))) = Ret tt.
Proof. ex. Qed.

Theorem C56_report : forall (R : Rust) (F : family) (n : net F) (a : option (addr F)),
  wf_net n -> (forall x, a = Some x -> valid x) ->
  exists hosts bc k class,
    host_range n hosts /\ broadcast_of n bc /\ count n k /\ class_of F n class /\
    forall T : Terminal,
      show_of F n a = (map (paint colors_enabled) (report n a hosts bc k class), Ret tt).
Proof. exact c56_report. Qed.
Print Assumptions C56_report.
Example C56_report_ex :
  let n := @new_with_mask (addr V4) ipv4_ops (ip4 64 0 0 0) (ip4 240 0 0 255) in
  @show_of debug_env colourful V4 n (Some (ip4 64 1 2 0)) =
  (map (paint true)
     (@report V4 debug_env n (Some (ip4 64 1 2 0)) (Some (ip4 64 0 1 0, ip4 79 255 254 0))
        (Some (ip4 79 255 255 0)) (2 ^ 20) (Some (lit "Class A"))), Ret tt).
Proof. ex. Qed.

(** In particular the printer split is given is one ([prints], see C51). *)
Theorem C56_printer : forall (R : Rust) (T : Terminal) (F : family), prints (show_of F).
Proof. exact c56_printer. Qed.
Print Assumptions C56_printer.
Example C56_printer_ex :
  List.length (fst (@show_of debug_env plain V4 (new_with_mask (ip4 10 0 3 0) (ip4 255 255 255 255)) None)) = 43%nat.
Proof. ex. Qed.

(** ** C57: the binary column *)
Theorem C57_text : forall (R : Rust) (F : family) (a : addr F) (m : option (addr F)) (class : bool) (o : option color),
  valid a -> (forall x, m = Some x -> valid x) ->
  exists ms, (forall T : Terminal, binary_of F a m class o = (map (paint colors_enabled) ms, Ret tt)) /\
    map fst (coloured ms) = binary_text a.
Proof. exact c57_text. Qed.
Print Assumptions C57_text.
Example C57_text_ex :
  stdout (fst (@binary_of debug_env colourful V4 (ip4 10 0 3 255) (Some (ip4 255 255 0 0)) true None)) =
    lit "00001010.00000000.00000011.11111111".
Proof. ex. Qed.

Theorem C57_digits : forall (F : family) (a : addr F),
  filter (fun x => negb (Ascii.eqb x (group_sep F))) (binary_text a) = map bit_char (abits a) /\
  List.length (binary_text a) = (N.to_nat (width F) + N.to_nat (width F) / group_size F - 1)%nat /\
  forall i, (i < List.length (binary_text a))%nat ->
    (nth_error (binary_text a) i = Some (group_sep F) <-> (S i mod S (group_size F) = 0)%nat).
Proof. exact c57_digits. Qed.
Print Assumptions C57_digits.
Example C57_digits_ex : @binary_text V6 (ip6 0x2001 0xdb8 0 0 0 0 0 0xffff) =
  lit "0010000000000001:0000110110111000:0000000000000000:0000000000000000:0000000000000000:0000000000000000:0000000000000000:1111111111111111".
Proof. ex. Qed.

(** ** C58: colours *)
Theorem C58_mask_colours : forall (R : Rust) (F : family) (a m : addr F) (class : bool),
  valid a -> valid m ->
  exists ms, (forall T : Terminal, binary_of F a (Some m) class None = (map (paint colors_enabled) ms, Ret tt)) /\
    forall j, (j < N.to_nat (width F))%nat ->
      nth_error (coloured ms) (j + j / group_size F) =
        Some (bit_char (nth j (abits a) false), bit_colour a m class j).
Proof. exact c58_mask_colours. Qed.
Print Assumptions C58_mask_colours.
Example C58_mask_colours_ex :
  let ms := @column V4 1 (ip4 192 168 1 2) (@bit_colour V4 (ip4 192 168 1 2) (ip4 255 255 0 255) true) in
  @binary_of debug_env colourful V4 (ip4 192 168 1 2) (Some (ip4 255 255 0 255)) true None = (map (paint true) ms, Ret tt) /\
  nth_error (coloured ms) 2 = Some ("0"%char, Magenta) /\ nth_error (coloured ms) 3 = Some ("0"%char, Green) /\
  nth_error (coloured ms) 8 = Some ("."%char, White) /\
  nth_error (coloured ms) 25 = Some ("1"%char, Yellow) /\ nth_error (coloured ms) 33 = Some ("1"%char, Green).
Proof. ex. Qed.

Theorem C58_single_colour : forall (R : Rust) (F : family) (a : addr F) (m : option (addr F)) (class : bool) (o : option color),
  valid a -> (o <> None \/ m = None) ->
  exists ms, (forall T : Terminal, binary_of F a m class o = (map (paint colors_enabled) ms, Ret tt)) /\
    forall j, (j < N.to_nat (width F))%nat ->
      nth_error (coloured ms) (j + j / group_size F) =
        Some (bit_char (nth j (abits a) false), match o with Some c => c | None => Yellow end).
Proof. exact c58_single_colour. Qed.
Print Assumptions C58_single_colour.
Example C58_single_colour_ex :
  let ms := @column V4 8 (ip4 192 168 1 2) (fun _ => Red) in
  @binary_of debug_env colourful V4 (ip4 192 168 1 2) None true (Some Red) = (map (paint true) ms, Ret tt) /\
  nth_error (coloured ms) 33 = Some ("1"%char, Red).
Proof. ex. Qed.

Theorem C58_class_sound : forall (n : net V4),
  wf_net n -> class_shown (base_addr n) (subnet_mask n) = true ->
  all_of_class n (class_label (base_addr n)) /\
  forall j, (j < class_bits (base_addr n))%nat -> nth j (abits (F := V4) (subnet_mask n)) false = true.
Proof. exact c58_class_sound. Qed.
Print Assumptions C58_class_sound.
Example C58_class_sound_ex :
  class_shown (ip4 192 168 0 0) (ip4 240 255 0 255) = true /\
  class_label (ip4 192 168 0 0) = lit "Class C" /\ class_bits (ip4 192 168 0 0) = 3%nat.
Proof. ex. Qed.

Theorem C58_class_first_four : forall (n : net V4),
  wf_net n -> (forall i, (i < 4)%nat -> nth i (abits (F := V4) (subnet_mask n)) false = true) ->
  class_shown (base_addr n) (subnet_mask n) = true.
Proof. exact c58_class_first_four. Qed.
Print Assumptions C58_class_first_four.
Example C58_class_first_four_ex :
  class_shown (ip4 224 0 0 0) (ip4 240 0 0 255) = true.
Proof. ex. Qed.

(** Not all networks of one class have their class bits set off. *)
Theorem C58_class_complete_refuted : exists (n : net V4) (t : str),
  wf_net n /\ all_of_class n t /\ class_shown (base_addr n) (subnet_mask n) = false.
Proof. exact c58_class_complete_refuted. Qed.
Print Assumptions C58_class_complete_refuted.
Example C58_class_complete_refuted_ex : class_shown (ip4 64 0 0 0) (ip4 192 0 0 0) = false.
Proof. ex. Qed.

(** ** C59: the class label *)
Theorem C59_class_label : forall (R : Rust) (n : net V4) (b0 m0 : N),
  wf_net n ->
  index (@to_bytes (addr V4) _ (base_addr n)) 0 = Ret b0 -> index (@to_bytes (addr V4) _ (subnet_mask n)) 0 = Ret m0 ->
  exists o, class_of V4 n o /\
    forall T : Terminal, output_ipv4_class (bytes_to_binary [b0]) (bytes_to_binary [m0]) =
      (map (paint colors_enabled) (match o with Some t => [Frag Magenta t] | None => [] end), Ret tt).
Proof. exact c59_class_label. Qed.
Print Assumptions C59_class_label.
Example C59_class_label_ex :
  @output_ipv4_class colourful (bytes_to_binary [224]) (bytes_to_binary [240]) =
    ([EvStyled Magenta (lit "Class D (multicast)")], Ret tt) /\
  @output_ipv4_class colourful (bytes_to_binary [224]) (bytes_to_binary [224]) = ([], Ret tt).
Proof. ex. Qed.

Theorem C59_class_exact : forall (n : net V4) (o : option str),
  wf_net n ->
  (class_of V4 n o <->
   o = if nth (class_bits (base_addr n) - 1) (abits (F := V4) (subnet_mask n)) false
       then Some (class_label (base_addr n)) else None).
Proof. exact c59_class_exact. Qed.
Print Assumptions C59_class_exact.
Example C59_class_exact_ex :
  class_bits (ip4 128 0 0 0) = 2%nat /\ nth 1 (@abits V4 (ip4 128 0 0 0)) false = false /\
  nth 1 (@abits V4 (ip4 192 0 0 0)) false = true.
Proof. ex. Qed.

(** ** C61: padding *)
Theorem C61_padding : forall (text : str) (w : Z),
  pad text w =
    (if (w <? 0)%Z then repeat " "%char (Z.to_nat (- w) - List.length text) ++ text
     else text ++ repeat " "%char (Z.to_nat w - List.length text)).
Proof. exact c61_padding. Qed.
Print Assumptions C61_padding.
Example C61_padding_ex :
  pad (lit "abc") 5 = lit "abc  " /\ pad (lit "abc") (-5) = lit "  abc" /\ pad (lit "abc") 2 = lit "abc".
Proof. ex. Qed.

Theorem C61_length : forall (text : str) (w : Z),
  List.length (pad text w) = Nat.max (List.length text) (Z.abs_nat w) /\
  exists before after, pad text w = before ++ text ++ after.
Proof. exact c61_length. Qed.
Print Assumptions C61_length.
Example C61_length_ex : List.length (pad (lit "HostMin:") 11) = 11%nat /\ List.length (pad (lit "HostMin:") (-3)) = 8%nat.
Proof. ex. Qed.

Theorem C61_written : forall (T : Terminal) (text : str) (c : option color) (w : Z),
  write_in_color text c w =
    ([match c with
      | Some c => if colors_enabled then EvStyled c (pad text w) else line (pad text w)
      | None => line (pad text w)
      end], Ret tt).
Proof. exact c61_written. Qed.
Print Assumptions C61_written.
Example C61_written_ex :
  @write_in_color colourful (lit "a") (Some Red) 2 = ([EvStyled Red (lit "a ")], Ret tt) /\
  @write_in_color plain (lit "a") (Some Red) 2 = ([line (lit "a ")], Ret tt).
Proof. ex. Qed.
