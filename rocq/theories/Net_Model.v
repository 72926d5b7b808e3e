(** Model of fly::net::IPv4Address, IPv6Address and Endpoint (fly/net/ipv4_address.hpp,
    ipv6_address.hpp, endpoint.hpp).  [t] is the type char (signed or unsigned), [host_big] the byte
    order of the host.  The replacement fields of the formatters are the formatters of Format_Model;
    that a format string substitutes its fields in order is C40. *)
From Verif Require Import Common BitStream_Model Lexer_Model Format_Model Strings_Model.

Definition char_max : Z := 127.
Definition dec_field : specifier :=
  Specifier 0 None ADefault SDefault false false None None None None false TDecimal CLower 0 0.
Definition hex_field : specifier :=
  Specifier 0 None ADefault SDefault false false None None None None false THex CLower 0 0.
Definition str_field : specifier :=
  Specifier 0 None ADefault SDefault false false None None None None false TString CLower 0 0.

(** * IPv4.  The address is m_address, the network-order integer. *)

(** ipv4_address.hpp:104-110 *)
Definition ipv4_from_octets (a0 a1 a2 a3 : Z) : Z :=
  Z.lor (Z.lor (Z.lor a0 (u32 (Z.shiftl a1 8))) (u32 (Z.shiftl a2 16))) (u32 (Z.shiftl a3 24)).

(** ipv4_address.hpp:119-134 *)
Definition in_addr_any : Z := 0.
Definition in_addr_broadcast : Z := 0xffffffff.
Definition in_addr_loopback : Z := 0x0100007f.

(** ipv4_address.hpp:147-157, the do-while loop; [n] slots of parts are free (4 - index). *)
Fixpoint ipv4_parts (n : nat) (l : lexer) (parts : list Z) : res (option (list Z) * lexer) :=
  match n with
  | O => UB (* never entered: the loop condition holds only while index < 4 *)
  | S n' =>
      let! (segment, l1) := consume_number l in
      match segment with
      | Some v =>
          if v <=? 0xffffffff then
            let parts' := parts ++ [u32 v] in
            match n' with
            | O => Ok (Some parts', l1)
            | S _ =>
                let! (dot, l2) := consume_if_char l1 46 in
                if dot then ipv4_parts n' l2 parts' else Ok (Some parts', l2)
            end
          else Ok (None, l1)
      | None => Ok (None, l1)
      end
  end.

(** ipv4_address.hpp:159-186 *)
Definition ipv4_host_address (parts : list Z) : option Z :=
  match parts with
  | [a] => Some a
  | [a; b] => if (a <=? 0xff) && (b <=? 0xffffff) then Some (Z.lor (u32 (Z.shiftl a 24)) b) else None
  | [a; b; c] =>
      if (a <=? 0xff) && (b <=? 0xff) && (c <=? 0xffff)
      then Some (Z.lor (Z.lor (u32 (Z.shiftl a 24)) (u32 (Z.shiftl b 16))) c) else None
  | [a; b; c; d] =>
      if (a <=? 0xff) && (b <=? 0xff) && (c <=? 0xff) && (d <=? 0xff)
      then Some (Z.lor (Z.lor (Z.lor (u32 (Z.shiftl a 24)) (u32 (Z.shiftl b 16))) (u32 (Z.shiftl c 8))) d) else None
  | _ => None
  end.

(** ipv4_address.hpp:137-194 from_string *)
Definition ipv4_from_string (host_big : bool) (address : list Z) : res (option Z) :=
  let! (parts, l) := ipv4_parts 4 (Lexer address 0) [] in
  match parts with
  | None => Ok None
  | Some ps =>
      match ipv4_host_address ps with
      | None => Ok None
      | Some h =>
          let! more := peek l 0 in
          match more with
          | Some _ => Ok None
          | None => Ok (Some (to_big_endian host_big 4 h))
          end
      end
  end.

(** ipv4_address.hpp:197-206 *)
Definition network_order (m_address : Z) : Z := m_address.
Definition host_order (host_big : bool) (m_address : Z) : Z := to_big_endian host_big 4 m_address.

(** ipv4_address.hpp:224-236, "{}.{}.{}.{}" with unsigned 32-bit arguments. *)
Definition ipv4_format (m_address : Z) : res (list Z) :=
  let octet := fun v => format_integer 32 false char_max dec_field 0 v in
  let! a := octet (Z.land m_address 0xff) in
  let! b := octet (Z.land (Z.shiftr m_address 8) 0xff) in
  let! c := octet (Z.land (Z.shiftr m_address 16) 0xff) in
  let! d := octet (Z.land (Z.shiftr m_address 24) 0xff) in
  Ok (a ++ [46] ++ b ++ [46] ++ c ++ [46] ++ d).

(** * IPv6.  The address is the 16-byte array m_address. *)

(** ipv6_address.hpp:138-151 *)
Definition in6_addr_any : list Z := repeat 0 16.
Definition in6_addr_loopback : list Z := removelast (repeat 0 16) ++ [0x01].

(** ipv6_address.hpp:169-196, one iteration of the do-while body.  [parts] holds the first index
    bytes of the (zero-initialised) array.  Outer [None]: return std::nullopt. *)
Definition ipv6_body (t : ctype) (l : lexer) (parts : list Z) (short : option nat)
    : res (option (lexer * list Z * option nat)) :=
  let! (colon, l1) := consume_if_char l 58 in
  if colon then
    let! (second, l2) := consume_if_char l1 58 in
    if second then
      match short with
      | Some _ => Ok None
      | None => Ok (Some (l2, parts, Some (length parts)))
      end
    else Ok (Some (l2, parts, short))
  else
    let! (segment, l2) := consume_hex_number t l1 in
    match segment with
    | Some v =>
        if v <=? 0xffff then
          if (length parts + 2 <=? 16)%nat
          then Ok (Some (l2, parts ++ [Z.land (Z.shiftr v 8) 0xff; Z.land v 0xff], short))
          else UB (* write past the end of the array *)
        else Ok None
    | None => Ok None
    end.
Fixpoint ipv6_loop (fuel : nat) (t : ctype) (l : lexer) (parts : list Z) (short : option nat)
    : res (option (lexer * list Z * option nat)) :=
  match fuel with
  | O => UB
  | S f =>
      let! r := ipv6_body t l parts short in
      match r with
      | None => Ok None
      | Some (l', parts', short') =>
          let! next := peek l' 0 in
          match next with
          | Some _ => if (length parts' <? 16)%nat then ipv6_loop f t l' parts' short' else Ok r
          | None => Ok r
          end
      end
  end.

(** std::rotate(parts.rbegin(), parts.rbegin() + start, parts.rend() - end): in the reversed array
    the range [start, 16-end) is moved before the range [0, start). *)
Definition rotate_reverse (parts : list Z) (start end_ : nat) : list Z :=
  let r := rev parts in
  rev (firstn (length r - end_ - start) (skipn start r) ++ firstn start r ++ skipn (length r - end_) r).

(** ipv6_address.hpp:154-204 from_string *)
Definition ipv6_from_string (t : ctype) (address : list Z) : res (option (list Z)) :=
  let! r := ipv6_loop (S (length address)) t (Lexer address 0) [] None in
  match r with
  | None => Ok None
  | Some (l, parts, short) =>
      let index := length parts in
      let array := parts ++ repeat 0 (16 - index) in
      let! next := peek l 0 in
      match next, short with
      | Some _, _ => Ok None
      | None, None => if (index =? 16)%nat then Ok (Some array) else Ok None
      | None, Some s => Ok (Some (rotate_reverse array (16 - index) s))
      end
  end.

(** ipv6_address.hpp:287-289, the lambda join_segments: a std::uint16_t. *)
Definition join_segments (parts : list Z) (index : nat) : Z :=
  u16 (Z.lor (Z.shiftl (nth index parts 0) 8) (nth (index + 1) parts 0)).

(** ipv6_address.hpp:299-302: skip the run of zero segments; [i] is the first candidate. *)
Fixpoint skip_zeros (fuel : nat) (parts : list Z) (i : nat) : nat :=
  match fuel with
  | O => i
  | S f => if (i <? 16)%nat && (join_segments parts i =? 0) then skip_zeros f parts (i + 2) else i
  end.

(** ipv6_address.hpp:293-311; every iteration adds at least 2 to i, so 8 iterations suffice. *)
Fixpoint ipv6_format_loop (fuel : nat) (parts : list Z) (i : nat) (used : bool) : res (list Z) :=
  if (i <? 16)%nat then
    match fuel with
    | O => UB
    | S f =>
        let segment := join_segments parts i in
        if (segment =? 0) && negb used then
          let i' := skip_zeros 8 parts (i + 2) in
          let! rest := ipv6_format_loop f parts i' true in
          Ok ((if (i' <? 16)%nat then [58] else [58; 58]) ++ rest)
        else
          (* "{:.{}}{:x}": the colon with precision 1 or 0, then the segment *)
          let! hex := format_integer 16 false char_max hex_field 0 segment in
          let! rest := ipv6_format_loop f parts (i + 2) used in
          Ok (format_string_value str_field 0 (Some (if (0 <? i)%nat then 1 else 0)) [58] ++ hex ++ rest)
    end
  else Ok [].
Definition ipv6_format (address : list Z) : res (list Z) := ipv6_format_loop 8 address 0 false.

(** operator<=> = default on std::array<uint8_t, 16> (ipv6_address.hpp:111): lexicographic. *)
Fixpoint compare_bytes (a b : list Z) : comparison :=
  match a, b with
  | x :: a', y :: b' => match x ?= y with Eq => compare_bytes a' b' | c => c end
  | [], [] => Eq
  | [], _ => Lt
  | _, [] => Gt
  end.

(** * Endpoints *)

(** string_view::find_last_of(char) *)
Definition find_last_of (s : list Z) (ch : Z) : option nat :=
  option_map (fun i => (length s - 1 - i)%nat) (find_if (fun c => c =? ch) (rev s)).

(** endpoint.hpp:174-184, the port; after the address was parsed to [address]. *)
Definition endpoint_finish {A} (address : option A) (port_view : list Z) : res (option (A * Z)) :=
  let! (port, l) := consume_number (Lexer port_view 0) in
  let! more := peek l 0 in
  match address, port, more with
  | Some a, Some p, None => if p >? 0xffff then Ok None else Ok (Some (a, u16 p))
  | _, _, _ => Ok None
  end.

(** endpoint.hpp:148-190 from_string for IPv4 *)
Definition endpoint4_from_string (host_big : bool) (endpoint : list Z) : res (option (Z * Z)) :=
  match find_last_of endpoint 58 with
  | None | Some O => Ok None
  | Some separator =>
      if (separator =? length endpoint)%nat then Ok None else
      let! address_view := substr endpoint 0 (Some separator) in
      let! port_view := substr endpoint (separator + 1) None in
      let! address := ipv4_from_string host_big address_view in
      endpoint_finish address port_view
  end.

(** The same for IPv6, with brackets (159-172). *)
Definition endpoint6_from_string (t : ctype) (endpoint : list Z) : res (option (list Z * Z)) :=
  match find_last_of endpoint 58 with
  | None | Some O => Ok None
  | Some separator =>
      if (separator =? length endpoint)%nat then Ok None else
      let! address_view := substr endpoint 0 (Some separator) in
      let! port_view := substr endpoint (separator + 1) None in
      if starts_with address_view [91] && ends_with address_view [93] then
        (* size() - 2 wraps for a one-character view, which cannot both start with [ and end with ] *)
        let! inner := substr address_view 1 (Some (length address_view - 2)%nat) in
        let! address := ipv6_from_string t inner in
        endpoint_finish address port_view
      else Ok None
  end.

(** endpoint.hpp:270-273 and 292-295: "{}:{}" and "[{}]:{}". *)
Definition port_format (port : Z) : res (list Z) := format_integer 16 false char_max dec_field 0 port.
Definition endpoint4_format (e : Z * Z) : res (list Z) :=
  let! a := ipv4_format (fst e) in
  let! p := port_format (snd e) in
  Ok (a ++ [58] ++ p).
Definition endpoint6_format (e : list Z * Z) : res (list Z) :=
  let! a := ipv6_format (fst e) in
  let! p := port_format (snd e) in
  Ok ([91] ++ a ++ [93; 58] ++ p).

(** endpoint.hpp:110 operator<=> = default: address first, then port. *)
Definition compare_endpoint {A} (cmp : A -> A -> comparison) (x y : A * Z) : comparison :=
  match cmp (fst x) (fst y) with Eq => snd x ?= snd y | c => c end.
(** endpoint.hpp:218-226, the hand-written operator< used on macOS. *)
Definition macos_less {A} (cmp : A -> A -> comparison) (x y : A * Z) : bool :=
  match cmp (fst x) (fst y) with Lt => true | _ => snd x <? snd y end.
