(** The library's own HKDF, used with OpenSSL before 1.1.0 and with AWS-LC: source/hkdf.c 23-120, 162-181.

    HMAC is an oracle ([mac]); any OpenSSL call may fail.  Simplifications: the memory behind [okm] is a list whose length is
    okm->len; secure zeroing is shown for [okm] only (for the local arrays prk and t see LocalModel.v); the calls
    HMAC_CTX_init and HMAC_CTX_cleanup are left out. *)
From Verif Require Import Base AlgModel CryptoModel.
Import List.
Open Scope list_scope.
Open Scope N_scope.

(** [mac_fn hash key data]: the HMAC.  [mac_fails i]: whether the i-th OpenSSL call fails. *)
Record mac := mk_mac { mac_fn : sha_version -> list N -> list N -> list N; mac_fails : nat -> bool }.

(** Result: return code and the output buffer; a failed assertion (lines 105, 110); a write outside the output buffer. *)
Inductive hkdf_out := HRet (rc : res unit) (okm : list N) | HAssert | HOutside.

(** memcpy(okm->buffer + off, src, length of src), line 107 *)
Definition blit (buf : list N) (off : N) (src : list N) : option (list N) :=
  if Nlen buf <? off + Nlen src then None
  else Some (firstn (N.to_nat off) buf ++ src ++ skipn (N.to_nat (off + Nlen src)) buf).

(** aws_cryptosdk_hkdf_extract, lines 48-74.  The first OpenSSL call. *)
Definition hkdf_extract (m : mac) (sha : sha_version) (salt ikm : list N) : res (list N) :=
  match sha with
  | NOSHA => Err E_UNSUPPORTED_FORMAT
  | _ =>
      let mysalt := match salt with [] => zeros (md_size sha) | _ => salt end in
      let prk := mac_fn m sha mysalt ikm in
      if mac_fails m 0 || (Nlen prk =? 0) then Err E_CRYPTO_UNKNOWN else Ok prk
  end.

(** An HMAC_CTX: key and data so far.  HMAC_Init_ex, HMAC_Update, HMAC_Final as call number [c]. *)
Definition hm_init (m : mac) (c : nat) (key : list N) : option (list N * list N) :=
  if mac_fails m c then None else Some (key, []).
Definition hm_update (m : mac) (c : nat) (x : list N * list N) (data : list N) : option (list N * list N) :=
  if mac_fails m c then None else Some (fst x, snd x ++ data).
Definition hm_final (m : mac) (c : nat) (sha : sha_version) (x : list N * list N) : option (list N) :=
  if mac_fails m c then None else Some (mac_fn m sha (fst x) (snd x)).

(** One round of HMAC, lines 97-103: the new contents of t. *)
Definition hkdf_round (m : mac) (c : nat) (sha : sha_version) (prk t info : list N) (idx : N) : option (list N) :=
  match hm_init m c prk with
  | None => None
  | Some x0 =>
      match (if negb (idx =? 1) then hm_update m (c + 1) x0 (firstn (N.to_nat (md_size sha)) t) else Some x0) with
      | None => None
      | Some x1 =>
          match hm_update m (c + 2) x1 info with
          | None => None
          | Some x2 =>
              match hm_update m (c + 3) x2 [idx mod 256] with
              | None => None
              | Some x3 => hm_final m (c + 4) sha x3
              end
          end
      end
  end.

(** The loop of lines 95-109; [k] rounds are left. *)
Fixpoint hkdf_loop (m : mac) (sha : sha_version) (prk info : list N) (k : nat) (idx : N) (c : nat) (t okm : list N) (remaining : N) : hkdf_out :=
  match k with
  | O => if remaining =? 0 then HRet (Ok tt) okm else HAssert                                      (* 110 *)
  | S k' =>
      match hkdf_round m c sha prk t info idx with
      | None => HRet (Err E_CRYPTO_UNKNOWN) (zeros (Nlen okm))                                      (* 115-119 *)
      | Some t' =>
          if negb (Nlen t' =? md_size sha) then HAssert                                             (* 105 *)
          else
            let w := if remaining <? md_size sha then remaining else md_size sha in
            match blit okm ((idx - 1) * md_size sha) (firstn (N.to_nat w) t') with
            | None => HOutside
            | Some okm' => hkdf_loop m sha prk info k' (idx + 1) (c + 5) t' okm' (remaining - w)
            end
      end
  end.

(** aws_cryptosdk_hkdf_expand, lines 76-120 *)
Definition hkdf_expand (m : mac) (sha : sha_version) (prk info okm : list N) : hkdf_out :=
  match sha with
  | NOSHA => HRet (Err E_UNSUPPORTED_FORMAT) okm
  | _ =>
      if (Nlen okm =? 0) || (Nlen prk =? 0) then HRet (Err E_CRYPTO_UNKNOWN) (zeros (Nlen okm))
      else
        let n := sub64 (add64 (Nlen okm) (md_size sha)) 1 / md_size sha in
        if 255 <? n then HRet (Err E_CRYPTO_UNKNOWN) (zeros (Nlen okm))
        else hkdf_loop m sha prk info (N.to_nat n) 1 1 [] okm (Nlen okm)
  end.

(** aws_cryptosdk_hkdf, lines 162-181, first alternative *)
Definition own_hkdf (m : mac) (sha : sha_version) (salt ikm info okm : list N) : hkdf_out :=
  match hkdf_extract m sha salt ikm with
  | Err e => HRet (Err e) okm
  | Ok prk => hkdf_expand m sha prk info okm
  end.

(** A session's primitives, with key derivation done by [own_hkdf] into a buffer of the wanted length. *)
Definition with_own_hkdf (cr : crypto) (m : mac) : crypto :=
  mk_crypto (cr_enc cr) (cr_dec cr)
    (fun sha salt ikm info len =>
       match own_hkdf m sha salt ikm info (zeros len) with HRet (Ok _) okm => Some okm | _ => None end)
    (cr_upd_ok cr) (cr_verify cr).
