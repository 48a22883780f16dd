(** Specification vocabulary for C71: why entries leave the cache, calls made one after the other in an
    environment that works. *)
From Verif Require Import Base EncCtxModel HdrModel CryptoModel SessionModel KeyringModel CacheModel CacheSpec
  CachingModel CachingSpec.

(** The clock reading that the expiry of entries uses during an operation. *)
Definition expiry_clock (o : cop) (ch : choice) : option N :=
  match o with
  | KFind _ => ch_clock ch
  | KPutEnc _ _ _ _ _ | KPutDec _ _ => ch_clock2 ch
  | _ => None
  end.

(** The reasons for which an operation may remove the entry [p], stored under [id], from the cache. *)
Definition may_remove (o : cop) (ch : choice) (c : cache) (id : list N) (p : nat) (e : centry) : Prop :=
  o = KClear
  \/ o = KRelease p true
  \/ put_id o = Some id
  \/ (put_id o <> None /\ c_cap c <= Nlen (c_map c))
  \/ exists now, expiry_clock o ch = Some now /\ ce_expiry e <= now.

(** Every interaction is made by call [j]. *)
Definition alone (j : nat) (h : list event) : Prop := forall e, In e h -> ev_call e = j.

(** Everything the environment decides during an interaction goes well, and clocks read between [t0] and
    [t1]. *)
Definition smooth (t0 t1 : N) (e : event) : Prop :=
  let ch := ev_env e in
  ch_lock ch = true /\ ch_mem ch = true /\ ch_insert ch = true /\ ch_push ch = true /\ ch_ctx ch = None
  /\ (exists t, ch_clock ch = Some t /\ t0 <= t <= t1)
  /\ (exists t, ch_clock2 ch = Some t /\ t0 <= t <= t1)
  /\ match ev_op e with
     | XMem => ev_resp e = RMem None
     | XClock => exists t, ev_resp e = RClock (Some t) /\ t0 <= t <= t1
     | _ => True
     end.

(** Materials created at [created] can still be used at [now] by the CMM [m]: the time limit is the
    largest 64-bit number, or the end of the lifetime is later than that, or it has not come yet. *)
Definition usable (m : caching) (created now : N) : Prop :=
  cm_ttl m = UINT64_MAX \/ two64 <= created + cm_ttl m \/ now < created + cm_ttl m.

(** The entry [p], which was [e], is still in the cache under [id], with the same materials and references, its usage
    [db] bytes and [dm] messages higher; it expires as before, or sooner, at the end of its lifetime under [m]. *)
Definition kept (m : caching) (c : cache) (id : list N) (p : nat) (e : centry) (db dm : N) : Prop :=
  live c id p /\ exists e', c_store c p = Some e' /\ ce_mat e' = ce_mat e /\ ce_created e' = ce_created e
    /\ ce_refs e' = ce_refs e /\ ce_bytes e' = ce_bytes e + db /\ ce_msgs e' = ce_msgs e + dm
    /\ (ce_expiry e' = ce_expiry e \/ (ce_expiry e' = ce_created e + cm_ttl m /\ ce_expiry e' < ce_expiry e)).

(** The plaintext that the calls [js] announce. *)
Fixpoint asked_bytes (jobs : nat -> job) (js : list nat) : N :=
  match js with
  | [] => 0
  | j :: js' => match jobs j with GenJob _ rq => rq_psize rq | _ => 0 end + asked_bytes jobs js'
  end.

(** The suite a request may name so that the cache is used: none, or a known one. *)
Definition known_suite (alg : N) : Prop := alg = 0 \/ can_cache alg <> None.

(** The limits of a caching CMM are 64-bit numbers. *)
Definition c_types (m : caching) : Prop :=
  cm_ttl m < two64 /\ cm_limit_bytes m < two64 /\ cm_limit_msgs m < two64.

(** The signature context of the materials can be saved and rebuilt. *)
Definition enc_resumes (io : sigio) (mat : enc_mat) : Prop :=
  forall sc, em_sig mat = Some sc -> exists k x, si_priv io sc = Ok k /\ si_sign io (em_alg mat) k = Ok x.
Definition dec_resumes (io : sigio) (mat : dec_mat) : Prop :=
  forall sc, dm_sig mat = Some sc -> exists k x, si_pub io sc = Ok k /\ si_verify io (dm_alg mat) k = Ok x.

(** * Configuration (C72) *)

(** Caching CMMs as applications can make them: created with a partition id, then adjusted by the three
    setters, those calls that fail changing nothing. *)
Inductive configured : caching -> Prop :=
| conf_new : forall part ttl unit m, caching_new part ttl unit = Ok m -> configured m
| conf_bytes : forall m n m', configured m -> set_limit_bytes n m = Ok m' -> configured m'
| conf_msgs : forall m n m', configured m -> set_limit_messages n m = Ok m' -> configured m'
| conf_ttl : forall m ttl unit m', configured m -> set_ttl ttl unit m = Ok m' -> configured m'.

(** The units of time: ticks per second. *)
Definition time_unit (unit : N) : Prop := unit = 1 \/ unit = 1000 \/ unit = 1000000 \/ unit = 1000000000.
(** [ns] nanoseconds are [ttl] ticks, or the largest 64-bit number if those are more. *)
Definition lasts (ns ttl unit : N) : Prop :=
  (ns * unit = ttl * 1000000000 /\ ns <= UINT64_MAX)
  \/ (ns = UINT64_MAX /\ UINT64_MAX * unit < ttl * 1000000000).

(** All calls are made on CMMs configured by the application's interface. *)
Definition all_configured (jobs : nat -> job) : Prop :=
  forall j m, cmm_of (jobs j) = Some m -> configured m.
