(** * SpecRefuse: why a text is refused.

    Of the model only the data types of errors are used. *)
From Verif Require Export SpecText.

(** ** Numbers of base [radix] up to [max], with or without a leading plus sign. *)
(** [s] starts with digits that already write a number that is too big. *)
Definition outgrows (radix max : N) (s : str) : Prop :=
  exists p rest x, (s = p ++ rest \/ s = "+"%char :: p ++ rest) /\ numeral radix p = Some x /\ max < x.

(** [s] writes no such number, and the complaint is [why]: what comes first in the text counts. *)
Definition why_not (radix max : N) (s : str) (why : int_error) : Prop :=
  (forall x, written radix s x -> max < x) /\
  match why with
  | IE_Empty => s = []
  | IE_PosOverflow => outgrows radix max s
  | IE_InvalidDigit => s <> [] /\ ~ outgrows radix max s
  end.

(** ** Addresses *)
(** [s] consists of the parts [ts], with [c] between them. *)
Definition parts_of (c : ascii) (s : str) (ts : list str) : Prop :=
  ts <> [] /\ Forall (fun t : str => ~ In c t) ts /\ s = separated c ts.

(** [t] is the first in [ts] that is not [good], and there are [i] before it. *)
Definition first_bad (good : str -> Prop) (ts : list str) (i : nat) (t : str) : Prop :=
  exists us vs, ts = us ++ t :: vs /\ List.length us = i /\ Forall good us /\ ~ good t.

Definition good4 (t : str) : Prop := exists x, written 10 t x /\ x <= 255.
Definition good6 (t : str) : Prop := exists g, group_text g t.

Definition refused4 (s : str) (e : addr_error) : Prop :=
  exists ts, parts_of "." s ts /\
    ((List.length ts <> 4%nat /\ e = IncorrectChunkCount (List.length ts) 4) \/
     (List.length ts = 4%nat /\ exists i t, first_bad good4 ts i t /\
       ((t = [] /\ e = EmptyChunk i) \/
        (exists x, written 10 t x /\ x < 2 ^ 32 /\ e = ChunkOutOfRange i x 0 255) \/
        (t <> [] /\ exists why, why_not 10 (2 ^ 32 - 1) t why /\ e = ChunkParseError i t why)))).

(** The eight groups that the parts [ts] stand for. *)
Definition expanded (ts gs : list str) : Prop :=
  List.length gs = 8%nat /\ (List.length ts <= 8)%nat /\
  ((Forall (fun t : str => t <> []) ts /\ gs = ts) \/
   exists ls rs, ts = ls ++ [] :: rs /\
     Forall (fun t : str => t <> []) ls /\ Forall (fun t : str => t <> []) rs /\
     gs = ls ++ repeat (lit "0") (8 - List.length ls - List.length rs) ++ rs).

(** There are [k] empty ones among the texts. *)
Inductive empty_ones : list str -> nat -> Prop :=
| EmptyOnesNone : empty_ones [] 0
| EmptyOnesMore ts k : empty_ones ts k -> empty_ones ([] :: ts) (S k)
| EmptyOnesSame c t ts k : empty_ones ts k -> empty_ones ((c :: t) :: ts) k.

Definition refused6 (s : str) (e : addr_error) : Prop :=
  exists ts k, parts_of ":" (padded s) ts /\ empty_ones ts k /\
    (((8 < List.length ts \/ (k = 0 /\ List.length ts < 8))%nat /\ e = IncorrectChunkCount (List.length ts) 8) \/
     ((List.length ts <= 8 /\ 1 < k)%nat /\ e = TooManyShorteningElements k 1) \/
     exists gs i t why, expanded ts gs /\ first_bad good6 gs i t /\ why_not 16 (2 ^ 16 - 1) t why /\
       e = ChunkParseError i t why).

Definition refused (F : family) : str -> addr_error -> Prop :=
  match F with V4 => refused4 | V6 => refused6 end.

(** [s] is the text of no single address. *)
Definition address_refused (s : str) (e : addr_error) : Prop :=
  (In "."%char s /\ ~ In ":"%char s /\ refused V4 s e) \/
  (In ":"%char s /\ ~ In "."%char s /\ refused V6 s e) \/
  ((In "."%char s <-> In ":"%char s) /\ e = UnknownAddressType).

(** [s] is neither a mask nor the length of a prefix; [bits] is the word size of the
    target. *)
Definition subnet_refused (bits : N) (s : str) (e : netspec_error) : Prop :=
  (In ":"%char s /\ exists e', refused V6 s e' /\ e = MaskError e') \/
  (In "."%char s /\ ~ In ":"%char s /\ exists e', refused V4 s e' /\ e = MaskError e') \/
  (~ In "."%char s /\ ~ In ":"%char s /\ exists why, why_not 10 (2 ^ bits - 1) s why /\ e = CidrParseError why).

(** ** Network specifications *)
(** [s] is [A], a slash and [M], and each looks as it should. *)
Definition looks_like (F : family) (s A M : str) : Prop :=
  exists w, s = spec_text A w M /\ addr_shape F A /\ (mask_shape F M \/ decimal M).

Definition netspec_refused (bits : N) (s : str) (e : netspec_error) : Prop :=
  match e with
  | Unrecognized t => t = s /\ forall F A M, ~ looks_like F s A M
  | AddressError e' => exists F A M, looks_like F s A M /\ refused F A e'
  | MaskError e' => exists F A M a, looks_like F s A M /\ reads F A a /\ mask_shape F M /\ refused F M e'
  | CidrRange x max =>
      exists F A M a, looks_like F s A M /\ reads F A a /\ numeral 10 M = Some x /\ width F < x < 2 ^ bits /\ max = width F
  | CidrParseError why =>
      exists F A M a x, looks_like F s A M /\ reads F A a /\ numeral 10 M = Some x /\ 2 ^ bits <= x /\ why = IE_PosOverflow
  end.
