(** What the functions of cipher.c are to do with AES-GCM, said without calls and buffers' positions. *)
From Verif Require Import Base AlgModel FrameModel CryptoModel SessionModel WireSpec SessionSpec CipherModel.
Import List.
Open Scope N_scope.

(** A 16-byte tag for all arguments. *)
Definition gcm_wf (g : gcm) : Prop := forall k iv a c, Nlen (g_tag g k iv a c) = 16.
Definition gcm_bytes (g : gcm) : Prop := (forall k iv n, g_stream g k iv n < 256) /\ forall k iv a c, bytes_ok (g_tag g k iv a c).

(** [y] is [x] combined with the key stream, byte by byte. *)
Definition streamed (g : gcm) (key iv x y : list N) : Prop :=
  length y = length x /\
  forall i, (i < length x)%nat -> nth i y 0 = N.lxor (nth i x 0) (g_stream g key iv (N.of_nat i)).

(** [ct] and [tag] are the AES-GCM encryption of [pt] with the additional data [aad]. *)
Definition gcm_sealed (g : gcm) (key iv aad pt ct tag : list N) : Prop :=
  streamed g key iv pt ct /\ tag = g_tag g key iv aad ct.

(** A suite of the table; its content key is the first part of the 32-byte array. *)
Definition is_suite (p : alg_props) : Prop := alg_lookup (ap_id p) = Some p.
Definition content_key_of (p : alg_props) (keybuf : list N) : list N := firstn (N.to_nat (ap_content_key_len p)) keybuf.

(** The authentication field of a header: initialisation vector and tag in version 1, the tag alone in version 2. *)
Definition auth_len (p : alg_props) : N := if ap_version p =? 1 then 28 else 16.
Definition auth_field (p : alg_props) (iv tag field : list N) : Prop :=
  (ap_version p = 1 /\ field = iv ++ tag /\ Nlen iv = 12) \/ (ap_version p = 2 /\ field = tag /\ iv = msg_iv 0).

(** Some call of OpenSSL fails; failures always leave an error code. *)
Definition faulty (fault : nat -> option (list N)) : Prop := exists n, fault n <> None.
Definition loud (fault : nat -> option (list N)) : Prop := forall n es, fault n = Some es -> es <> [].

(** A run that is not stopped and frees the contexts it makes. *)
Definition ends {A} (m : M A) (s : ssl) (Q : A -> ssl -> Prop) : Prop :=
  exists a s', m s = inr (a, s') /\ o_live s' = o_live s /\ Q a s'.

(** The buffer holds nothing but zeros. *)
Definition cleared (before after : buf) : Prop :=
  b_len after = 0 /\ length (b_mem after) = length (b_mem before) /\ Forall (fun b => b = 0) (b_mem after).

(** The oracles of CryptoModel that belong to [g]. *)
Definition crypto_for (g : gcm) (cr : crypto) : Prop :=
  (forall k iv a p c t, cr_enc cr k iv a p = Some (c, t) <-> gcm_sealed g k iv a p c t) /\
  (forall k iv a c t p, cr_dec cr k iv a c t = OpenOk p <-> gcm_sealed g k iv a p c t) /\
  (forall k iv a c t, cr_dec cr k iv a c t <> OpenFail) .
