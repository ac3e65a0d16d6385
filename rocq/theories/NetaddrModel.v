(** Model of src/libcommon/netaddr.c, include/oonf/libcommon/netaddr.h and
    src/libcommon/netaddr_acl.c. *)
From Verif Require Import Base BitsModel StrBase.

(** Address families.  AF_INET and AF_INET6 are the Linux values; AF_MAX is
    46 with current Linux headers (netaddr.h:66-76 puts three more values
    behind it).  Only distinctness and fitting in one byte matter. *)
Definition AF_UNSPEC : Z := 0.
Definition AF_INET : Z := 2.
Definition AF_INET6 : Z := 10.
Definition AF_MAX : Z := 46.
Definition AF_MAC48 : Z := AF_MAX + 1.
Definition AF_EUI64 : Z := AF_MAX + 2.
Definition AF_UUID : Z := AF_MAX + 3.

(** netaddr.h:103-112 *)
Record netaddr := { na_addr : bytes; na_type : Z; na_plen : Z }.

(** netaddr.c:874-892 [netaddr_get_af_maxprefix]; AF_UUID is not listed there *)
Definition af_maxprefix (t : Z) : Z :=
  if t =? AF_INET then 32
  else if t =? AF_INET6 then 128
  else if t =? AF_MAC48 then 48
  else if t =? AF_EUI64 then 64
  else 0.
(** netaddr.h:257-260 *)
Definition maxprefix (a : netaddr) : Z := af_maxprefix (na_type a).

Definition zero16 : bytes := repeat 0 16.
(** netaddr.h:220-223 [netaddr_invalidate]; netaddr.c:67 [NETADDR_UNSPEC] *)
Definition na_unspec : netaddr := {| na_addr := zero16; na_type := AF_UNSPEC; na_plen := 0 |}.

(** netaddr.c:162-200 [netaddr_from_binary_prefix].  [binary] has exactly [len]
    bytes.  None: the memcpy of line 197 writes past [_addr]. *)
Definition from_binary_prefix (binary : bytes) (addr_type prefix_len : Z) : option (Z * netaddr) :=
  let len0 := zlen binary in
  let '(ty, len) :=
    if negb (addr_type =? 0) then (addr_type, len0)
    else if len0 =? 4 then (AF_INET, len0)
    else if len0 =? 6 then (AF_MAC48, len0)
    else if len0 =? 8 then (AF_EUI64, len0)
    else if len0 =? 16 then (AF_INET6, len0)
    else (AF_UNSPEC, if len0 >? 16 then 16 else len0) in
  let plen := if prefix_len =? 255 then u8 (Z.shiftl len 3) else prefix_len in
  match copy_in zero16 0 (firstn (Z.to_nat len) binary) with
  | None => None
  | Some ad => Some (if ty =? AF_UNSPEC then -1 else 0, {| na_addr := ad; na_type := ty; na_plen := plen |})
  end.

(** netaddr.c:209-221 [netaddr_to_binary] into a buffer of [len] bytes: return
    code and the bytes written at its start. *)
Definition to_binary (a : netaddr) (len : Z) : option (Z * bytes) :=
  let addr_len := Z.shiftr (maxprefix a) 3 in
  if (addr_len =? 0) || (len <? addr_len) then Some (-1, [])
  else match copy_out (na_addr a) 0 (Z.to_nat addr_len) with
       | None => None
       | Some b => Some (0, b)
       end.

(** netaddr.c:312-357 [netaddr_create_host_bin] *)
Definition create_host_bin (netmask : netaddr) (number : bytes) : option (Z * netaddr) :=
  let mx := maxprefix netmask in
  let host := {| na_addr := na_addr netmask; na_type := na_type netmask; na_plen := mx |} in
  let num_length := zlen number in
  if mx =? 0 then Some (-1, host)
  else if (mx =? na_plen netmask) || (num_length =? 0) then Some (0, host)
  else
    let hpl := u8 (Z.quot (mx - na_plen netmask + 7) 8) in
    let fin ad host_index number_index :=
      match copy_out number number_index (Z.to_nat (num_length - number_index)) with
      | None => None
      | Some bs =>
        match copy_in ad host_index bs with
        | None => None
        | Some ad' => Some (0, {| na_addr := ad'; na_type := na_type netmask; na_plen := mx |})
        end
      end in
    if hpl >? num_length then fin (na_addr netmask) (mx / 8 - num_length) 0
    else
      let host_index := na_plen netmask / 8 in
      let number_index := num_length - hpl in
      if negb (Z.land (na_plen netmask) 7 =? 0) then
        let mask := Z.shiftr 255 (Z.land (na_plen netmask) 7) in
        match zget (na_addr netmask) host_index, zget number number_index with
        | Some h, Some n =>
          match zset (na_addr netmask) host_index
                  (Z.lor (Z.land h (u8 (Z.lnot mask))) (Z.land n mask)) with
          | None => None
          | Some ad => fin ad (host_index + 1) (number_index + 1)
          end
        | _, _ => None
        end
      else fin (na_addr netmask) host_index number_index.

(** netaddr.c:387-424: loop of [netaddr_create_prefix]; [fuel] is the number of
    iterations (at most 16), the loop variable is advanced twice after a 255. *)
Fixpoint create_prefix_loop (fuel : nat) (len maxlen : Z) (truncate : bool)
    (host mask pad : bytes) (plen : Z) : option (Z * bytes * Z) :=
  match fuel with
  | O => None
  | S f =>
    if negb (len <? maxlen) then Some (0, pad, plen)
    else
      match zget host len, zget mask len with
      | Some h, Some m =>
        match (if truncate then zset pad len (Z.land h m) else Some pad) with
        | None => None
        | Some pad' =>
          if m =? 255 then create_prefix_loop f (len + 1 + 1) maxlen truncate host mask pad' (u8 (plen + 8))
          else if m =? 254 then Some (0, pad', u8 (plen + 7))
          else if m =? 252 then Some (0, pad', u8 (plen + 6))
          else if m =? 248 then Some (0, pad', u8 (plen + 5))
          else if m =? 240 then Some (0, pad', u8 (plen + 4))
          else if m =? 224 then Some (0, pad', u8 (plen + 3))
          else if m =? 192 then Some (0, pad', u8 (plen + 2))
          else if m =? 128 then Some (0, pad', u8 (plen + 1))
          else if m =? 0 then Some (0, pad', plen)
          else Some (-1, pad', plen)
        end
      | _, _ => None
      end
  end.
(** netaddr.c:368-425 [netaddr_create_prefix]; [prefix] is the old content of
    the output object (its address bytes are not cleared when truncating) *)
Definition create_prefix (prefix host netmask : netaddr) (truncate : bool) : option (Z * netaddr) :=
  if negb (na_type host =? na_type netmask) || (na_type host =? AF_UNSPEC) then Some (-1, prefix)
  else
    let maxlen := af_maxprefix (na_type host) / 8 in
    let pad := if truncate then na_addr prefix else na_addr host in
    match create_prefix_loop 17 0 maxlen truncate (na_addr host) (na_addr netmask) pad 0 with
    | None => None
    | Some (rc, ad, pl) => Some (rc, {| na_addr := ad; na_type := na_type host; na_plen := pl |})
    end.

(** netaddr.c:432-460 [netaddr_truncate]; [alias] says whether source and
    destination are the same object, otherwise [dst] is the old destination. *)
Definition trunc_mask : list Z := [0; 0x80; 0xc0; 0xe0; 0xf0; 0xf8; 0xfc; 0xfe].
Definition truncate (alias : bool) (dst src : netaddr) : option netaddr :=
  let byte_prefix := na_plen src / 8 in
  let bit_prefix := Z.land (na_plen src) 7 in
  match (if alias then Some (na_addr src)
         else match copy_out (na_addr src) 0 (Z.to_nat byte_prefix) with
              | None => None
              | Some b => copy_in (na_addr dst) 0 b
              end) with
  | None => None
  | Some ad0 =>
    match (if negb (bit_prefix =? 0) then
             match zget (na_addr src) byte_prefix, zget trunc_mask bit_prefix with
             | Some b, Some m =>
               match zset ad0 byte_prefix (Z.land b m) with
               | None => None
               | Some ad => Some (ad, byte_prefix + 1)
               end
             | _, _ => None
             end
           else Some (ad0, byte_prefix)) with
    | None => None
    | Some (ad1, bp) =>
      match (if bp <? 16 then copy_in ad1 bp (repeat 0 (Z.to_nat (16 - bp))) else Some ad1) with
      | None => None
      | Some ad2 => Some {| na_addr := ad2; na_type := na_type src; na_plen := na_plen src |}
      end
    end
  end.

(** netaddr.c:1211-1232 [_binary_is_in_subnet].  memcmp may read all of its
    [byte_length] bytes, so both arrays have to be that long. *)
Definition bin_in_subnet (subnet : netaddr) (bin : bytes) : option bool :=
  let byte_length := na_plen subnet / 8 in
  let bit_length := na_plen subnet mod 8 in
  match copy_out (na_addr subnet) 0 (Z.to_nat byte_length), copy_out bin 0 (Z.to_nat byte_length) with
  | Some a, Some b =>
    if negb (str_eqb a b) then Some false
    else if negb (bit_length =? 0) then
      match zget (na_addr subnet) byte_length, zget bin byte_length with
      | Some x, Some y => Some (Z.shiftr x (8 - bit_length) =? Z.shiftr y (8 - bit_length))
      | _, _ => None
      end
    else Some true
  | _, _ => None
  end.
(** netaddr.c:861-867 [netaddr_is_in_subnet] *)
Definition is_in_subnet (subnet addr : netaddr) : option bool :=
  if negb (na_type subnet =? na_type addr) then Some false else bin_in_subnet subnet (na_addr addr).
(** netaddr.c:846-852 [netaddr_binary_is_in_subnet] *)
Definition binary_is_in_subnet (subnet : netaddr) (bin : bytes) (af : Z) : option bool :=
  if negb (na_type subnet =? af) || negb (maxprefix subnet =? zlen bin * 8) then Some false
  else bin_in_subnet subnet bin.

(** memcmp(3): sign of the first difference *)
Fixpoint memcmp (a b : bytes) : Z :=
  match a, b with
  | x :: a', y :: b' => if x =? y then memcmp a' b' else x - y
  | _, _ => 0
  end.
(** the 18 bytes of the struct in memory order (no padding) *)
Definition na_raw (a : netaddr) : bytes := na_addr a ++ [na_type a; na_plen a].
(** netaddr.h:375-378 [netaddr_cmp], avl_comp.c:138-143 [avl_comp_netaddr] *)
Definition na_cmp (a b : netaddr) : Z := memcmp (na_raw a) (na_raw b).

(** netaddr.h:312-331 embedding of IPv4 into IPv6 *)
Definition embed_ipv4_compatible (src : netaddr) : option netaddr :=
  match copy_out (na_addr src) 0 4 with
  | None => None
  | Some b => Some {| na_addr := repeat 0 12 ++ b; na_type := AF_INET6; na_plen := u8 (na_plen src + 96) |}
  end.
Definition extract_ipv4_compatible (src : netaddr) : option netaddr :=
  match copy_out (na_addr src) 12 4 with
  | None => None
  | Some b => Some {| na_addr := b ++ repeat 0 12; na_type := AF_INET; na_plen := u8 (na_plen src - 96) |}
  end.

(** ** Text *)

(** netaddr.c:1159-1171 [_read_hexdigit] *)
Definition read_hexdigit (c : Z) : Z :=
  if (48 <=? c) && (c <=? 57) then c - 48
  else if (97 <=? c) && (c <=? 102) then c - 97 + 10
  else if (65 <=? c) && (c <=? 70) then c - 65 + 10
  else -1.

(** static const char hex[] (line 981) *)
Definition hexchar (n : Z) : Z := if n <? 10 then 48 + n else 97 + (n - 10).

(** netaddr.c:979-1016 [_mac_to_string]: text produced for a buffer of
    [dst_size] bytes; [sep]=0 means no separator.  The result is the text
    before the last separator written (line 1014). *)
Fixpoint mac_to_string (dst_size : Z) (bin : bytes) (sep : Z) : bytes :=
  match bin with
  | [] => []
  | b :: bin' =>
    if dst_size >=? 3 then
      let two := [hexchar (Z.shiftr b 4); hexchar (Z.land b 15)] in
      let dst_size' := dst_size - (if sep =? 0 then 0 else 1) - 2 in
      let rest := mac_to_string dst_size' bin' sep in
      if match rest with [] => true | _ => false end then two
      else two ++ (if sep =? 0 then [] else [sep]) ++ rest
    else []
  end.

Definition uuid_groups : list Z := [8; 4; 4; 4; 12].
(** netaddr.c:1026-1057 [_uuid_to_string]; the text of each group is exactly
    group-length characters long because the buffer is large enough *)
Fixpoint uuid_to_string_loop (groups : list Z) (dst_size : Z) (src : bytes) : bytes :=
  match groups with
  | [] => []
  | g :: gs =>
    let t := mac_to_string dst_size (firstn (Z.to_nat (g / 2)) src) 0 in
    match gs with
    | [] => t
    | _ => t ++ 45 :: uuid_to_string_loop gs (dst_size - g - 1) (skipn (Z.to_nat (g / 2)) src)
    end
  end.
Definition uuid_to_string (dst_size : Z) (src : bytes) : option bytes :=
  if negb (zlen src =? 16) then None
  else if dst_size <? 37 then None
  else Some (uuid_to_string_loop uuid_groups dst_size src).

(** netaddr.c:1068-1099 [_bin_from_hex]: None is the error return, otherwise
    the number of bytes left and the bytes written. *)
Fixpoint bin_from_hex (bin_size : nat) (src : bytes) (sep : Z) : option (Z * bytes) :=
  match bin_size with
  | O => None
  | S n =>
    match src with
    | [] => None
    | c :: s1 =>
      if read_hexdigit c =? -1 then None
      else
        let '(num, s2) := match s1 with
                          | c2 :: s2 => if read_hexdigit c2 >=? 0
                                        then (Z.shiftl (read_hexdigit c) 4 + read_hexdigit c2, s2)
                                        else (read_hexdigit c, s1)
                          | [] => (read_hexdigit c, s1) end in
        match s2 with
        | [] => Some (Z.of_nat n, [u8 num])
        | c3 :: s3 =>
          if negb (sep =? 0) then
            if c3 =? sep then
              match bin_from_hex n s3 sep with
              | None => None
              | Some (lft, bs) => Some (lft, u8 num :: bs)
              end
            else None
          else match bin_from_hex n s2 sep with
               | None => None
               | Some (lft, bs) => Some (lft, u8 num :: bs)
               end
        end
    end
  end.

(** netaddr.c:1108-1151 [_uuid_from_string] *)
Fixpoint uuid_from_string_loop (groups : list Z) (cur : bytes) : option bytes :=
  match groups with
  | [] => Some []
  | g :: gs =>
    let grp := take_while (fun c => negb (c =? 45)) cur in
    let tl := drop_while (fun c => negb (c =? 45)) cur in
    let next := match tl with [] => None | _ :: r => Some r end in
    match next, gs with
    | None, _ :: _ => None
    | _, _ =>
      if negb (zlen grp =? g) then None
      else match bin_from_hex (Z.to_nat (g / 2)) grp 0 with
           | Some (0, bs) =>
             match gs with
             | [] => Some bs
             | _ => match next with
                    | None => None
                    | Some r => match uuid_from_string_loop gs r with
                                | None => None | Some bs' => Some (bs ++ bs') end
                    end
             end
           | _ => None
           end
    end
  end.
Definition uuid_from_string (src : bytes) : option bytes :=
  if zlen src >? 36 then None else uuid_from_string_loop uuid_groups src.

(** netaddr.c:1188-1200: loop of [_subnetmask_to_prefixlen] on the host order value *)
Fixpoint subnetmask_loop (n : nat) (v4 shift : Z) : Z :=
  match n with
  | O => -1
  | S n' => if v4 =? shift then Z.of_nat n' else subnetmask_loop n' v4 (u32 (Z.shiftl shift 1))
  end.
Definition subnetmask_len (v4 : Z) : Z := subnetmask_loop 32 v4 0xffffffff.
Definition be32 (b : bytes) : Z := fold_left (fun a x => a * 256 + x) b 0.

(** string.c:118-140 [str_trim] *)
Fixpoint rtrim1 (s : bytes) : bytes :=
  (* drop trailing whitespace, but never the first character *)
  match s with
  | [] => []
  | c :: s' => match rtrim1 s' with
               | [] => [c]
               | [d] => if isspace d then [c] else [c; d]
               | r => c :: r
               end
  end.
Definition str_trim (s : bytes) : bytes := rtrim1 (drop_while isspace s).

Definition NETADDR_STR_LEN : Z := 46 + 16.
Definition ends_addr (c : Z) : bool := isspace c || (c =? 47).

(** netaddr.c:594-632: scan of the address part *)
Record scan := { sc_colon : Z; sc_minus : Z; sc_coloncolon : bool; sc_point : bool; sc_last : bool }.
Definition scan0 := {| sc_colon := 0; sc_minus := 0; sc_coloncolon := false; sc_point := false; sc_last := false |}.
Definition scan_step (s : scan) (c : Z) : scan :=
  {| sc_colon := if c =? 58 then sc_colon s + 1 else sc_colon s;
     sc_minus := if c =? 45 then sc_minus s + 1 else sc_minus s;
     sc_coloncolon := if c =? 58 then sc_coloncolon s || sc_last s else sc_coloncolon s;
     sc_point := if c =? 46 then true else sc_point s;
     sc_last := c =? 58 |}.
Definition scan_all (s : bytes) : scan := fold_left scan_step s scan0.

(** netaddr.c:139-148 *)
Definition known_prefixes : list (bytes * netaddr) :=
  [ (zs "any4", {| na_addr := zero16; na_type := AF_INET; na_plen := 0 |});
    (zs "any6", {| na_addr := zero16; na_type := AF_INET6; na_plen := 0 |});
    (zs "linklocal4", {| na_addr := [169; 254] ++ repeat 0 14; na_type := AF_INET; na_plen := 16 |});
    (zs "linklocal6", {| na_addr := [0xfe; 0x80] ++ repeat 0 14; na_type := AF_INET6; na_plen := 10 |});
    (zs "ula", {| na_addr := 0xfc :: repeat 0 15; na_type := AF_INET6; na_plen := 7 |}) ].

Definition pad16 (b : bytes) : bytes := b ++ repeat 0 (16 - length b).

(** Result of the address part: [None] error, otherwise family, maximum prefix
    length and the 16 address bytes.  netaddr.c:659-695 without the prefix
    length.  [pton4]/[pton6] stand for inet_pton(3). *)
Definition parse_addr (pton4 pton6 : bytes -> option bytes) (a : bytes) : option (Z * Z * bytes) :=
  let s := scan_all a in
  let colon := sc_colon s in let minus := sc_minus s in
  if ((colon =? 5) || (minus =? 5)) && ((colon =? 0) || (minus =? 0)) && negb (sc_point s)
     && negb (sc_coloncolon s)
  then match bin_from_hex 6 a (if colon >? 0 then 58 else 45) with
       | Some (0, b) => Some (AF_MAC48, 48, pad16 b)
       | _ => None end
  else if (colon =? 0) && negb (sc_point s) && (minus =? 7)
  then match bin_from_hex 8 a 45 with
       | Some (0, b) => Some (AF_EUI64, 64, pad16 b)
       | _ => None end
  else if (colon =? 0) && sc_point s && (minus =? 0)
  then match pton4 a with Some b => Some (AF_INET, 32, pad16 b) | None => None end
  else if (sc_coloncolon s || (colon =? 7)) && (minus =? 0)
  then match pton6 a with Some b => Some (AF_INET6, 128, pad16 b) | None => None end
  else if (minus =? 4) && (colon =? 0) && negb (sc_point s)
  then match uuid_from_string a with Some b => Some (AF_UUID, 128, pad16 b) | None => None end
  else None.

(** netaddr.c:567-714 [netaddr_from_string]: None is the return value -1 (the
    destination is then of type AF_UNSPEC).  The input is copied into a buffer of
    62 bytes (line 605), i.e. cut after 61 characters. *)
Definition from_string (pton4 pton6 : bytes -> option bytes) (src : bytes) : option netaddr :=
  if str_eqb src (zs "-") then Some na_unspec
  else match find (fun kp => strcase_eqb src (fst kp)) known_prefixes with
  | Some kp => Some (snd kp)
  | None =>
    let buf := str_trim (firstn (Z.to_nat (NETADDR_STR_LEN - 1)) src) in
    let a := take_while (fun c => negb (ends_addr c)) buf in
    let r0 := drop_while (fun c => negb (ends_addr c)) buf in
    match r0 with
    | [] => match parse_addr pton4 pton6 a with
            | None => None
            | Some (ty, mx, ad) => Some {| na_addr := ad; na_type := ty; na_plen := mx |}
            end
    | _ =>
      let r1 := drop_while isspace r0 in
      let r2 := match r1 with c :: r => if c =? 47 then r else r1 | [] => r1 end in
      let r3 := drop_while isspace r2 in
      match r3 with
      | [] => None
      | _ =>
        let '(v, rest) := strtoul10 r3 in
        let p0 := match rest with [] => s32 v | _ => -1 end in
        match parse_addr pton4 pton6 a with
        | None => None
        | Some (ty, mx, ad) =>
          let p := if (ty =? AF_INET) && (p0 =? -1)
                   then match pton4 r3 with None => -1 | Some b => subnetmask_len (be32 b) end
                   else p0 in
          if (p <? 0) || (p >? mx) then None
          else Some {| na_addr := ad; na_type := ty; na_plen := u8 p |}
        end
      end
    end
  end.

(** netaddr.c:521-558 [netaddr_to_prefixstring] for a non-NULL source.  The text
    buffer has 62 bytes.  [ntop4]/[ntop6] stand for inet_ntop(3). *)
Definition to_prefixstring (ntop4 ntop6 : bytes -> bytes) (src : netaddr) (force : bool) : option bytes :=
  let body :=
    if na_type src =? AF_INET then Some (ntop4 (firstn 4 (na_addr src)))
    else if na_type src =? AF_INET6 then Some (ntop6 (na_addr src))
    else if na_type src =? AF_MAC48 then Some (mac_to_string NETADDR_STR_LEN (firstn 6 (na_addr src)) 58)
    else if na_type src =? AF_EUI64 then Some (mac_to_string NETADDR_STR_LEN (firstn 8 (na_addr src)) 45)
    else if na_type src =? AF_UUID then uuid_to_string NETADDR_STR_LEN (na_addr src)
    else Some (zs "-") in
  match body with
  | None => None
  | Some t =>
    if (na_type src =? AF_INET) || (na_type src =? AF_INET6) || (na_type src =? AF_MAC48)
       || (na_type src =? AF_EUI64) || (na_type src =? AF_UUID)
    then Some (if force || (na_plen src <? maxprefix src) then t ++ 47 :: dec_str (na_plen src) else t)
    else Some t
  end.

(** ** ACL: netaddr_acl.c *)

(** include/oonf/libcommon/netaddr_acl.h [struct netaddr_acl] *)
Record acl := { acl_accept : list netaddr; acl_reject : list netaddr;
                acl_reject_first : bool; acl_accept_default : bool }.
(** netaddr_acl.c:58-61 *)
Definition acl_empty : acl :=
  {| acl_accept := []; acl_reject := []; acl_reject_first := false; acl_accept_default := false |}.

(** netaddr_acl.c:215-236; None: not a keyword *)
Definition acl_keyword (a : acl) (cmd : bytes) : option acl :=
  if strcase_eqb cmd (zs "default_accept") then
    Some {| acl_accept := acl_accept a; acl_reject := acl_reject a; acl_reject_first := acl_reject_first a; acl_accept_default := true |}
  else if strcase_eqb cmd (zs "default_reject") then
    Some {| acl_accept := acl_accept a; acl_reject := acl_reject a; acl_reject_first := acl_reject_first a; acl_accept_default := false |}
  else if strcase_eqb cmd (zs "first_accept") then
    Some {| acl_accept := acl_accept a; acl_reject := acl_reject a; acl_reject_first := false; acl_accept_default := acl_accept_default a |}
  else if strcase_eqb cmd (zs "first_reject") then
    Some {| acl_accept := acl_accept a; acl_reject := acl_reject a; acl_reject_first := true; acl_accept_default := acl_accept_default a |}
  else None.

(** lines 93-104: first pass, counts the entries; the keywords take effect here too *)
Fixpoint acl_pass1 (a : acl) (l : list bytes) (nacc nrej : nat) : acl * nat * nat :=
  match l with
  | [] => (a, nacc, nrej)
  | w :: l' =>
    match acl_keyword a w with
    | Some a' => acl_pass1 a' l' nacc nrej
    | None => match w with
              | 45 :: _ => acl_pass1 a l' nacc (S nrej)
              | _ => acl_pass1 a l' (S nacc) nrej
              end
    end
  end.
(** lines 121-146: second pass; [nacc]/[nrej] are the allocated sizes, a store
    beyond them is a fault *)
Inductive acl_result := AclFault | AclErr | AclOk (a : acl).
Fixpoint acl_pass2 (parse : bytes -> option netaddr) (a : acl) (l : list bytes) (nacc nrej : nat) : acl_result :=
  match l with
  | [] => AclOk a
  | w :: l' =>
    match acl_keyword a w with
    | Some a' => acl_pass2 parse a' l' nacc nrej
    | None =>
      let addr := match w with c :: r => if (c =? 45) || (c =? 43) then r else w | [] => w end in
      let rej := match w with c :: _ => c =? 45 | [] => false end in
      if rej then
        if (length (acl_reject a) <? nrej)%nat then
          match parse addr with
          | None => AclErr
          | Some n => acl_pass2 parse {| acl_accept := acl_accept a; acl_reject := acl_reject a ++ [n];
                                   acl_reject_first := acl_reject_first a; acl_accept_default := acl_accept_default a |} l' nacc nrej
          end
        else AclFault
      else
        if (length (acl_accept a) <? nacc)%nat then
          match parse addr with
          | None => AclErr
          | Some n => acl_pass2 parse {| acl_accept := acl_accept a ++ [n]; acl_reject := acl_reject a;
                                   acl_reject_first := acl_reject_first a; acl_accept_default := acl_accept_default a |} l' nacc nrej
          end
        else AclFault
    end
  end.
(** netaddr_acl.c:81-151 [netaddr_acl_from_strarray]; allocation succeeds.
    On error the ACL is empty again (line 149). *)
Definition acl_from_strarray (parse : bytes -> option netaddr) (l : list bytes) : acl_result :=
  let '(a, nacc, nrej) := acl_pass1 acl_empty l 0 0 in
  acl_pass2 parse a l nacc nrej.

(** netaddr_acl.c:244-254 [_is_in_array] *)
Fixpoint is_in_array (l : list netaddr) (addr : netaddr) : option bool :=
  match l with
  | [] => Some false
  | n :: l' => match is_in_subnet n addr with
               | None => None
               | Some true => Some true
               | Some false => is_in_array l' addr
               end
  end.
(** netaddr_acl.c:188-207 [netaddr_acl_check_accept] *)
Definition acl_check (a : acl) (addr : netaddr) : option bool :=
  match (if acl_reject_first a then is_in_array (acl_reject a) addr else Some false) with
  | None => None
  | Some true => Some false
  | Some false =>
    match is_in_array (acl_accept a) addr with
    | None => None
    | Some true => Some true
    | Some false =>
      match (if negb (acl_reject_first a) then is_in_array (acl_reject a) addr else Some false) with
      | None => None
      | Some true => Some false
      | Some false => Some (acl_accept_default a)
      end
    end
  end.
