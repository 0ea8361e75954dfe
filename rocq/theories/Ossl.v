(** Model of the contexts of FlashCryptoAdapter_OpenSSL (src/FlashCryptoAdapter_OpenSSL.cpp): Diffie-Hellman with its checks of public keys, AES-CBC and HMAC.
    OpenSSL is modelled as documented: BIGNUMs are integers, EVP_CipherUpdate without padding processes whole blocks and keeps the rest, EVP_CipherInit_ex with an IV forgets what was kept,
    HMAC_Init_ex begins anew.  AES of one block and HMAC-SHA256 are arguments.  Simplified: OpenSSL does not fail; lengths fit an int; the erasing of secrets. *)
From Verif Require Import Base.

(** BN_bin2bn *)
Definition bin2bn (l : list Z) : Z := fold_left (fun a b => a * 256 + b) l 0.
(** BN_num_bytes, BN_bn2bin *)
Definition num_bytes (n : Z) : nat := if n <=? 0 then 0%nat else S (Z.to_nat (Z.log2 n / 8)).
Fixpoint be (k : nat) (n : Z) : list Z := match k with O => [] | S k => be k (n / 256) ++ [n mod 256] end.
Definition bn2bin (n : Z) : list Z := be (num_bytes n) n.
(** BN_mod_exp, for an exponent that is not negative *)
Fixpoint mod_exp_pos (b : Z) (e : positive) (m : Z) : Z :=
  match e with xH => b mod m | xO e => let x := mod_exp_pos b e m in (x * x) mod m | xI e => let x := mod_exp_pos b e m in ((x * x) mod m * b) mod m end.
Definition mod_exp (b e m : Z) : Z := match e with Zpos e => mod_exp_pos b e m | _ => 1 mod m end.

(** 30-38: MODP_Group *)
Record group := mkG { g_id : Z; g_g : list Z; g_modulus : list Z; g_bits : Z }.
(** 43-52 *)
Definition MODP_1024 : list Z := [
  0xFF; 0xFF; 0xFF; 0xFF; 0xFF; 0xFF; 0xFF; 0xFF; 0xC9; 0x0F; 0xDA; 0xA2; 0x21; 0x68; 0xC2; 0x34;
  0xC4; 0xC6; 0x62; 0x8B; 0x80; 0xDC; 0x1C; 0xD1; 0x29; 0x02; 0x4E; 0x08; 0x8A; 0x67; 0xCC; 0x74;
  0x02; 0x0B; 0xBE; 0xA6; 0x3B; 0x13; 0x9B; 0x22; 0x51; 0x4A; 0x08; 0x79; 0x8E; 0x34; 0x04; 0xDD;
  0xEF; 0x95; 0x19; 0xB3; 0xCD; 0x3A; 0x43; 0x1B; 0x30; 0x2B; 0x0A; 0x6D; 0xF2; 0x5F; 0x14; 0x37;
  0x4F; 0xE1; 0x35; 0x6D; 0x6D; 0x51; 0xC2; 0x45; 0xE4; 0x85; 0xB5; 0x76; 0x62; 0x5E; 0x7E; 0xC6;
  0xF4; 0x4C; 0x42; 0xE9; 0xA6; 0x37; 0xED; 0x6B; 0x0B; 0xFF; 0x5C; 0xB6; 0xF4; 0x06; 0xB7; 0xED;
  0xEE; 0x38; 0x6B; 0xFB; 0x5A; 0x89; 0x9F; 0xA5; 0xAE; 0x9F; 0x24; 0x11; 0x7C; 0x4B; 0x1F; 0xE6;
  0x49; 0x28; 0x66; 0x51; 0xEC; 0xE6; 0x53; 0x81; 0xFF; 0xFF; 0xFF; 0xFF; 0xFF; 0xFF; 0xFF; 0xFF ].

(** 55-72 *)
Definition MODP_2048 : list Z := [
  0xFF; 0xFF; 0xFF; 0xFF; 0xFF; 0xFF; 0xFF; 0xFF; 0xC9; 0x0F; 0xDA; 0xA2; 0x21; 0x68; 0xC2; 0x34;
  0xC4; 0xC6; 0x62; 0x8B; 0x80; 0xDC; 0x1C; 0xD1; 0x29; 0x02; 0x4E; 0x08; 0x8A; 0x67; 0xCC; 0x74;
  0x02; 0x0B; 0xBE; 0xA6; 0x3B; 0x13; 0x9B; 0x22; 0x51; 0x4A; 0x08; 0x79; 0x8E; 0x34; 0x04; 0xDD;
  0xEF; 0x95; 0x19; 0xB3; 0xCD; 0x3A; 0x43; 0x1B; 0x30; 0x2B; 0x0A; 0x6D; 0xF2; 0x5F; 0x14; 0x37;
  0x4F; 0xE1; 0x35; 0x6D; 0x6D; 0x51; 0xC2; 0x45; 0xE4; 0x85; 0xB5; 0x76; 0x62; 0x5E; 0x7E; 0xC6;
  0xF4; 0x4C; 0x42; 0xE9; 0xA6; 0x37; 0xED; 0x6B; 0x0B; 0xFF; 0x5C; 0xB6; 0xF4; 0x06; 0xB7; 0xED;
  0xEE; 0x38; 0x6B; 0xFB; 0x5A; 0x89; 0x9F; 0xA5; 0xAE; 0x9F; 0x24; 0x11; 0x7C; 0x4B; 0x1F; 0xE6;
  0x49; 0x28; 0x66; 0x51; 0xEC; 0xE4; 0x5B; 0x3D; 0xC2; 0x00; 0x7C; 0xB8; 0xA1; 0x63; 0xBF; 0x05;
  0x98; 0xDA; 0x48; 0x36; 0x1C; 0x55; 0xD3; 0x9A; 0x69; 0x16; 0x3F; 0xA8; 0xFD; 0x24; 0xCF; 0x5F;
  0x83; 0x65; 0x5D; 0x23; 0xDC; 0xA3; 0xAD; 0x96; 0x1C; 0x62; 0xF3; 0x56; 0x20; 0x85; 0x52; 0xBB;
  0x9E; 0xD5; 0x29; 0x07; 0x70; 0x96; 0x96; 0x6D; 0x67; 0x0C; 0x35; 0x4E; 0x4A; 0xBC; 0x98; 0x04;
  0xF1; 0x74; 0x6C; 0x08; 0xCA; 0x18; 0x21; 0x7C; 0x32; 0x90; 0x5E; 0x46; 0x2E; 0x36; 0xCE; 0x3B;
  0xE3; 0x9E; 0x77; 0x2C; 0x18; 0x0E; 0x86; 0x03; 0x9B; 0x27; 0x83; 0xA2; 0xEC; 0x07; 0xA2; 0x8F;
  0xB5; 0xC5; 0x5D; 0xF0; 0x6F; 0x4C; 0x52; 0xC9; 0xDE; 0x2B; 0xCB; 0xF6; 0x95; 0x58; 0x17; 0x18;
  0x39; 0x95; 0x49; 0x7C; 0xEA; 0x95; 0x6A; 0xE5; 0x15; 0xD2; 0x26; 0x18; 0x98; 0xFA; 0x05; 0x10;
  0x15; 0x72; 0x8E; 0x5A; 0x8A; 0xAC; 0xAA; 0x68; 0xFF; 0xFF; 0xFF; 0xFF; 0xFF; 0xFF; 0xFF; 0xFF ].

(** 75-108 *)
Definition MODP_4096 : list Z := [
  0xFF; 0xFF; 0xFF; 0xFF; 0xFF; 0xFF; 0xFF; 0xFF; 0xC9; 0x0F; 0xDA; 0xA2; 0x21; 0x68; 0xC2; 0x34;
  0xC4; 0xC6; 0x62; 0x8B; 0x80; 0xDC; 0x1C; 0xD1; 0x29; 0x02; 0x4E; 0x08; 0x8A; 0x67; 0xCC; 0x74;
  0x02; 0x0B; 0xBE; 0xA6; 0x3B; 0x13; 0x9B; 0x22; 0x51; 0x4A; 0x08; 0x79; 0x8E; 0x34; 0x04; 0xDD;
  0xEF; 0x95; 0x19; 0xB3; 0xCD; 0x3A; 0x43; 0x1B; 0x30; 0x2B; 0x0A; 0x6D; 0xF2; 0x5F; 0x14; 0x37;
  0x4F; 0xE1; 0x35; 0x6D; 0x6D; 0x51; 0xC2; 0x45; 0xE4; 0x85; 0xB5; 0x76; 0x62; 0x5E; 0x7E; 0xC6;
  0xF4; 0x4C; 0x42; 0xE9; 0xA6; 0x37; 0xED; 0x6B; 0x0B; 0xFF; 0x5C; 0xB6; 0xF4; 0x06; 0xB7; 0xED;
  0xEE; 0x38; 0x6B; 0xFB; 0x5A; 0x89; 0x9F; 0xA5; 0xAE; 0x9F; 0x24; 0x11; 0x7C; 0x4B; 0x1F; 0xE6;
  0x49; 0x28; 0x66; 0x51; 0xEC; 0xE4; 0x5B; 0x3D; 0xC2; 0x00; 0x7C; 0xB8; 0xA1; 0x63; 0xBF; 0x05;
  0x98; 0xDA; 0x48; 0x36; 0x1C; 0x55; 0xD3; 0x9A; 0x69; 0x16; 0x3F; 0xA8; 0xFD; 0x24; 0xCF; 0x5F;
  0x83; 0x65; 0x5D; 0x23; 0xDC; 0xA3; 0xAD; 0x96; 0x1C; 0x62; 0xF3; 0x56; 0x20; 0x85; 0x52; 0xBB;
  0x9E; 0xD5; 0x29; 0x07; 0x70; 0x96; 0x96; 0x6D; 0x67; 0x0C; 0x35; 0x4E; 0x4A; 0xBC; 0x98; 0x04;
  0xF1; 0x74; 0x6C; 0x08; 0xCA; 0x18; 0x21; 0x7C; 0x32; 0x90; 0x5E; 0x46; 0x2E; 0x36; 0xCE; 0x3B;
  0xE3; 0x9E; 0x77; 0x2C; 0x18; 0x0E; 0x86; 0x03; 0x9B; 0x27; 0x83; 0xA2; 0xEC; 0x07; 0xA2; 0x8F;
  0xB5; 0xC5; 0x5D; 0xF0; 0x6F; 0x4C; 0x52; 0xC9; 0xDE; 0x2B; 0xCB; 0xF6; 0x95; 0x58; 0x17; 0x18;
  0x39; 0x95; 0x49; 0x7C; 0xEA; 0x95; 0x6A; 0xE5; 0x15; 0xD2; 0x26; 0x18; 0x98; 0xFA; 0x05; 0x10;
  0x15; 0x72; 0x8E; 0x5A; 0x8A; 0xAA; 0xC4; 0x2D; 0xAD; 0x33; 0x17; 0x0D; 0x04; 0x50; 0x7A; 0x33;
  0xA8; 0x55; 0x21; 0xAB; 0xDF; 0x1C; 0xBA; 0x64; 0xEC; 0xFB; 0x85; 0x04; 0x58; 0xDB; 0xEF; 0x0A;
  0x8A; 0xEA; 0x71; 0x57; 0x5D; 0x06; 0x0C; 0x7D; 0xB3; 0x97; 0x0F; 0x85; 0xA6; 0xE1; 0xE4; 0xC7;
  0xAB; 0xF5; 0xAE; 0x8C; 0xDB; 0x09; 0x33; 0xD7; 0x1E; 0x8C; 0x94; 0xE0; 0x4A; 0x25; 0x61; 0x9D;
  0xCE; 0xE3; 0xD2; 0x26; 0x1A; 0xD2; 0xEE; 0x6B; 0xF1; 0x2F; 0xFA; 0x06; 0xD9; 0x8A; 0x08; 0x64;
  0xD8; 0x76; 0x02; 0x73; 0x3E; 0xC8; 0x6A; 0x64; 0x52; 0x1F; 0x2B; 0x18; 0x17; 0x7B; 0x20; 0x0C;
  0xBB; 0xE1; 0x17; 0x57; 0x7A; 0x61; 0x5D; 0x6C; 0x77; 0x09; 0x88; 0xC0; 0xBA; 0xD9; 0x46; 0xE2;
  0x08; 0xE2; 0x4F; 0xA0; 0x74; 0xE5; 0xAB; 0x31; 0x43; 0xDB; 0x5B; 0xFC; 0xE0; 0xFD; 0x10; 0x8E;
  0x4B; 0x82; 0xD1; 0x20; 0xA9; 0x21; 0x08; 0x01; 0x1A; 0x72; 0x3C; 0x12; 0xA7; 0x87; 0xE6; 0xD7;
  0x88; 0x71; 0x9A; 0x10; 0xBD; 0xBA; 0x5B; 0x26; 0x99; 0xC3; 0x27; 0x18; 0x6A; 0xF4; 0xE2; 0x3C;
  0x1A; 0x94; 0x68; 0x34; 0xB6; 0x15; 0x0B; 0xDA; 0x25; 0x83; 0xE9; 0xCA; 0x2A; 0xD4; 0x4C; 0xE8;
  0xDB; 0xBB; 0xC2; 0xDB; 0x04; 0xDE; 0x8E; 0xF9; 0x2E; 0x8E; 0xFC; 0x14; 0x1F; 0xBE; 0xCA; 0xA6;
  0x28; 0x7C; 0x59; 0x47; 0x4E; 0x6B; 0xC0; 0x5D; 0x99; 0xB2; 0x96; 0x4F; 0xA0; 0x90; 0xC3; 0xA2;
  0x23; 0x3B; 0xA1; 0x86; 0x51; 0x5B; 0xE7; 0xED; 0x1F; 0x61; 0x29; 0x70; 0xCE; 0xE2; 0xD7; 0xAF;
  0xB8; 0x1B; 0xDD; 0x76; 0x21; 0x70; 0x48; 0x1C; 0xD0; 0x06; 0x91; 0x27; 0xD5; 0xB0; 0x5A; 0xA9;
  0x93; 0xB4; 0xEA; 0x98; 0x8D; 0x8F; 0xDD; 0xC1; 0x86; 0xFF; 0xB7; 0xDC; 0x90; 0xA6; 0xC0; 0x8F;
  0x4D; 0xF4; 0x35; 0xC9; 0x34; 0x06; 0x31; 0x99; 0xFF; 0xFF; 0xFF; 0xFF; 0xFF; 0xFF; 0xFF; 0xFF ].

(** 110-125: modp_groups, findGroupParams *)
Definition modp_groups : list group := [mkG 16 [2] MODP_4096 480; mkG 14 [2] MODP_2048 320; mkG 2 [2] MODP_1024 224].
Definition find_group (id : Z) : option group := find (fun g => id =? g_id g) modp_groups.
(** 442-448: getSupportedDHGroups *)
Definition supported : list Z := map g_id modp_groups.

(** 463-466: m_exponent, m_g, m_modulus, m_public; [None] before init *)
Record dh := mkD { d_e : Z; d_g : Z; d_m : Z; d_pub : list Z }.
(** BN_rand with BN_RAND_TOP_ONE: [r] stands for the random bits *)
Definition bn_rand (bits r : Z) : Z := 2 ^ (bits - 1) + r mod 2 ^ (bits - 1).
(** 402-424: modp *)
Definition modp (b e m : Z) : list Z := bn2bin (mod_exp b e m).
(** 310-332: init *)
Definition dh_of (g : group) (r : Z) : dh :=
  let e := bn_rand (g_bits g) r in let gg := bin2bn (g_g g) in let m := bin2bn (g_modulus g) in mkD e gg m (modp gg e m).
Definition dh_init (c : option dh) (id r : Z) : option dh * bool :=
  match c with Some d => (Some d, false) | None => match find_group id with Some g => (Some (dh_of g r), true) | None => (None, false) end end.
(** 376-390: the bits of a byte, and of all; [n0], [n1] are num0 and num1 *)
Fixpoint count_byte (k : nat) (b : Z) (n : Z * Z) : Z * Z :=
  match k with
  | O => n
  | S k => count_byte k (Z.shiftr b 1) (if Z.land b 1 =? 1 then (fst n, snd n + 1) else if snd n =? 0 then n else (fst n + 1, snd n))
  end.
Definition count_bits (l : list Z) : Z * Z := fold_left (fun n b => count_byte 8 b n) l (0, 0).
(** 355-400: validate_public *)
Definition TWO_TO_24TH : Z := bin2bn [1; 0; 0; 0].
Definition validate (m p : Z) (l : list Z) : bool :=
  let cutoff := m - TWO_TO_24TH in let n := count_bits l in
  negb (p <? TWO_TO_24TH) && negb (cutoff <? p) && negb (fst n <? 16) && negb (snd n <? 16).
(** 339-351: computeSharedSecret; [None] is the answer false *)
Definition shared (c : option dh) (other : list Z) : option (list Z) :=
  match c with None => None | Some d => let p := bin2bn other in if validate (d_m d) p other then Some (modp p (d_e d) (d_m d)) else None end.

Section Aes.
(** AES of a block with a key *)
Variables E D : list Z -> list Z -> list Z.
(** the EVP_CIPHER_CTX: the key, whether it encrypts, the block to combine with next, what is kept *)
Record evp := mkE { v_key : list Z; v_enc : bool; v_iv : list Z; v_rest : list Z }.
Definition xor (a b : list Z) : list Z := map (fun p => wrap8 (Z.lxor (fst p) (snd p))) (combine a b).
(** EVP_CipherUpdate of whole blocks; [n] is how many *)
Fixpoint blocks (n : nat) (c : evp) (l : list Z) : evp * list Z :=
  match n with
  | O => (c, [])
  | S n =>
      let p := firstn 16 l in
      let o := if v_enc c then E (v_key c) (xor p (v_iv c)) else xor (D (v_key c) p) (v_iv c) in
      let '(c, q) := blocks n (mkE (v_key c) (v_enc c) (if v_enc c then o else p) (v_rest c)) (skipn 16 l) in (c, o ++ q)
  end.
Definition update (c : evp) (l : list Z) : evp * list Z :=
  let l := v_rest c ++ l in let n := (length l / 16)%nat in
  let '(c, o) := blocks n c l in (mkE (v_key c) (v_enc c) (v_iv c) (skipn (n * 16) l), o).
(** 252-267: init *)
Definition aes_init (c : option evp) (key : list Z) (enc : bool) : option evp * bool :=
  match c with Some _ => (c, false) | None => if negb (length key =? 16)%nat then (None, false) else (Some (mkE key enc (repeat 0 16) []), true) end.
(** 269-283: crypt_cbc; [None] is the answer false *)
Definition crypt_cbc (c : evp) (iv src : list Z) : evp * option (list Z) :=
  let '(c, o) := update (mkE (v_key c) (v_enc c) iv []) src in
  (c, if (length o =? length src)%nat then Some o else None).
End Aes.

Section Hmac.
(** HMAC-SHA256 of a message with a key *)
Variable H : list Z -> list Z -> list Z.
(** the HMAC_CTX: its key, what it was given since it began; m_dirty.  (The class for EVP_MAC, 127-190, begins anew with the key each time: always dirty.) *)
Record mac := mkM { m_key : list Z; m_data : list Z; m_dirty : bool }.
(** 141-170, 203-215: init *)
Definition mac_init (evp_mac : bool) (c : option mac) (key : list Z) : option mac * bool := match c with Some _ => (c, false) | None => (Some (mkM key [] evp_mac), true) end.
(** 172-184, 217-230: compute *)
Definition compute (c : mac) (msg : list Z) : mac * list Z :=
  let c := if m_dirty c then mkM (m_key c) [] true else c in let d := m_data c ++ msg in (mkM (m_key c) d true, H (m_key c) d).
End Hmac.
