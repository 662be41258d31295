(** * SpecMessages: the wording of messages

    The catalogue of messages: for each problem a line with places for its data.
    Of the model only the data types of problems are used. *)
From Verif Require Import RustBase Addr Parse Console Spec SpecText SpecProcess.

(** [t] with the [xs] in the places marked by a pair of braces. *)
Fixpoint fill_in (t : str) (xs : list str) : str :=
  match t with
  | "{"%char :: "}"%char :: t' =>
      match xs with x :: xs' => x ++ fill_in t' xs' | [] => fill_in t' [] end
  | c :: t' => c :: fill_in t' xs
  | [] => []
  end.

(** [q] is a string literal that stands for [s]. *)
Definition quotes (s q : str) : Prop := literal q = Some (s, []).
(** [t] is the number [n] in decimal. *)
Definition shows (n : N) (t : str) : Prop := usual 10 n t.

(** The line [l] is [pattern] with data that is related to [ps] in its places. *)
Definition reading_like (pattern : string) (ps : list (str -> Prop)) (l : str) : Prop :=
  exists xs, Forall2 (fun p x => p x) ps xs /\ l = fill_in (lit pattern) xs.
(** The place is filled by text that is like [f]. *)
Definition count_of (n : nat) : str -> Prop := shows (N.of_nat n).

(** Why a number cannot be read: for readers, and as the name of the kind. *)
Definition int_wording (e : int_error) : str -> Prop :=
  reading_like
    match e with
    | IE_Empty => "cannot parse integer from empty string"
    | IE_InvalidDigit => "invalid digit found in string"
    | IE_PosOverflow => "number too large to fit in target type"
    end [].
Definition int_name (e : int_error) : str -> Prop :=
  reading_like
    match e with
    | IE_Empty => "ParseIntError { kind: Empty }"
    | IE_InvalidDigit => "ParseIntError { kind: InvalidDigit }"
    | IE_PosOverflow => "ParseIntError { kind: PosOverflow }"
    end [].

(** Why a text is no address: for readers, and as the name of the problem. *)
Definition addr_wording (e : addr_error) : str -> Prop :=
  match e with
  | UnknownAddressType => reading_like "unknown IP address type" []
  | IncorrectChunkCount got expected =>
      reading_like "IP address has {} chunk(s); expected {}" [count_of got; count_of expected]
  | EmptyChunk i => reading_like "IP address chunk with index {} is empty" [count_of i]
  | ChunkParseError i chunk why =>
      reading_like "failed to parse IP address chunk with index {} ({}): {}" [count_of i; quotes chunk; int_wording why]
  | ChunkOutOfRange i got min max =>
      reading_like "IP address chunk with index {} ({}) is out of range {} <= n <= {} chunk"
        [count_of i; shows got; shows min; shows max]
  | TooManyShorteningElements got most =>
      reading_like "IP address has {} shortening elements; expected maximum {}" [count_of got; count_of most]
  end.
Definition addr_name (e : addr_error) : str -> Prop :=
  match e with
  | UnknownAddressType => reading_like "UnknownAddressType" []
  | IncorrectChunkCount got expected =>
      reading_like "IncorrectChunkCount({}, {})" [count_of got; count_of expected]
  | EmptyChunk i => reading_like "EmptyChunk({})" [count_of i]
  | ChunkParseError i chunk why =>
      reading_like "ChunkParseError({}, {}, {})" [count_of i; quotes chunk; int_name why]
  | ChunkOutOfRange i got min max =>
      reading_like "ChunkOutOfRange({}, {}, {}, {})" [count_of i; shows got; shows min; shows max]
  | TooManyShorteningElements got most =>
      reading_like "TooManyShorteningElements({}, {})" [count_of got; count_of most]
  end.

(** Why a text is no network. *)
Definition spec_wording (e : netspec_error) : str -> Prop :=
  match e with
  | Unrecognized s => reading_like "unrecognized network specification: {}" [quotes s]
  | AddressError e => reading_like "failed to parse address: {}" [addr_name e]
  | MaskError e => reading_like "failed to parse mask: {}" [addr_name e]
  | CidrParseError e => reading_like "failed to parse CIDR prefix: {}" [int_name e]
  | CidrRange got max => reading_like "CIDR prefix {} is greater than the maximum ({})" [shows got; shows max]
  end.

(** The line of every message but the usage text. *)
Definition wording (m : errmsg) : str -> Prop :=
  match m with
  | MsgUsage => fun _ => False
  | MsgFirstAddr e => reading_like "failed to parse first address: {}" [addr_wording e]
  | MsgSecondAddr e => reading_like "failed to parse second address: {}" [addr_wording e]
  | MsgVersions => reading_like "both addresses must be the same version" []
  | MsgMixing => reading_like "mixing IPv4 and IPv6 is not supported" []
  | MsgParsing e => reading_like "parsing error: {}" [spec_wording e]
  | MsgHostCount s e => reading_like "failed to parse host count {}: {}" [quotes s; int_wording e]
  | MsgHostCountNegative => reading_like "host counts must be zero or greater" []
  | MsgSplitNetspec s e => reading_like "failed to parse network specification {}: {}" [quotes s; spec_wording e]
  | MsgNetspec s e => reading_like "failed to parse network spec {}: {}" [quotes s; spec_wording e]
  | MsgSubnet s e => reading_like "failed to parse subnet {}: {}" [quotes s; spec_wording e]
  | MsgCidrMax got max =>
      reading_like "CIDR value {} is greater than maximum for {} ({})"
        [shows got; eq (if max =? 32 then lit "IPv4" else lit "IPv6"); shows max]
  | MsgMask6ForNet4 => reading_like "cannot resize an IPv4 subnet to an IPv6 mask" []
  | MsgMask4ForNet6 => reading_like "cannot resize an IPv6 subnet to an IPv4 mask" []
  | MsgNetwork s e => reading_like "failed to parse network {}: {}" [quotes s; spec_wording e]
  | MsgError e => spec_wording e
  end.

(** [ls] are the lines of the messages [ms]. *)
Inductive told : list errmsg -> list str -> Prop :=
| told_nothing : told [] []
| told_usage ms ls : told ms ls -> told (MsgUsage :: ms) (usage_text ++ ls)
| told_line m ms l ls : wording m l -> told ms ls -> told (m :: ms) (l :: ls).

(** The problems in what a run sends out. *)
Definition problems (es : list event) : list errmsg :=
  flat_map (fun e => match e with EvErr m => [m] | _ => [] end) es.
