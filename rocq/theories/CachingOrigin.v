(** Where the materials returned by the caching CMM come from, and how old they are: proofs
    (C34, C57). *)
From Verif Require Import Base BaseProofs AlgModel EncCtxModel HdrModel CryptoModel SessionModel KeyringModel
  WireSpec EncCtxProofs CacheModel CacheSpec CacheProofs CacheTheorems CachingModel CachingSpec CachingProofs.
From Coq Require Import Permutation ZArith Lia ZifyBool ZifyNat ZifyN.
Import List ListNotations.
Open Scope list_scope. Open Scope N_scope.

(** * Freshness rule *)

Definition fresh_for (m : caching) (t : list (xop * resp)) (p : nat) : Prop :=
  cm_ttl m = UINT64_MAX \/
  exists created, In (XCache (KCreated p), RNum created) t /\
    (add64 created (cm_ttl m) < created \/
     exists now, In (XClock, RClock (Some now)) t /\ now < add64 created (cm_ttl m)).

Definition fresh_rule (j : job) (t : list (xop * resp)) (o : xop) : Prop :=
  match o with
  | XCache (KGetEnc p _) => exists m, cmm_of j = Some m /\ fresh_for m t p
  | XCache (KGetDec p) => exists m, cmm_of j = Some m /\ fresh_for m t p
  | _ => True
  end.
Definition anything (_ : list (xop * resp)) (_ : jres) : Prop := True.

Ltac in_list := cbn [In]; repeat (first [left; reflexivity | right]).

Ltac fresh_leaf :=
  eexists; split; [reflexivity|];
  first [ left; now apply N.eqb_eq
        | right; eexists; split; [in_list|];
          first [ left; now apply N.ltb_lt
                | right; eexists; split; [in_list|]; now apply N.leb_gt ] ].
Ltac fresh_A := first [exact Logic.I | cbn [fresh_rule]; fresh_leaf].
Ltac fresh_F := exact Logic.I.

Lemma job_fresh : forall sha j, obeys (fresh_rule j) anything [] (prog_of sha j).
Proof.
  intros sha [m rq|m rq|]; cbn [prog_of].
  - unfold gen_prog, gen_hit, gen_miss, check_ttl, set_ttl_on_miss, update_usage, release_opt.
    cbv zeta. sx fresh_A fresh_F.
  - unfold dec_prog, dec_miss, check_ttl, set_ttl_on_miss, release_opt. cbv zeta. sx fresh_A fresh_F.
  - sx fresh_A fresh_F.
Qed.

(** * Provenance rule *)

Definition origin_rule (sha : list N -> list N) (j : job) (t : list (xop * resp)) (o : xop) : Prop :=
  match o with
  | XUpEnc rq' => exists m rq, j = GenJob m rq /\ passed_on rq rq' t
  | XUpDec rq' => exists m, j = DecJob m rq'
  | XCache (KPutEnc mat b n ctx id) => exists m rq rq', j = GenJob m rq /\ enc_cache_id sha m rq = Ok id
      /\ In (XUpEnc rq', REnc ctx (Ok mat)) t /\ passed_on rq rq' t
  | XCache (KPutDec mat id) => exists m rq, j = DecJob m rq /\ dec_cache_id sha m rq = Ok id
      /\ In (XUpDec rq, RDec (Ok mat)) t
  | XCache (KGetEnc p ctx) => exists m rq id, j = GenJob m rq /\ enc_cache_id sha m rq = Ok id
      /\ ctx = rq_ctx rq /\ In (XCache (KFind id), RFound (Some (p, true))) t
  | XCache (KGetDec p) => exists m rq id, j = DecJob m rq /\ dec_cache_id sha m rq = Ok id
      /\ In (XCache (KFind id), RFound (Some (p, false))) t
  | _ => True
  end.

Definition origin_end (sha : list N -> list N) (j : job) (t : list (xop * resp)) (r : jres) : Prop :=
  match r with
  | JEnc ctx (COk mat) => exists m rq, j = GenJob m rq /\
      ((exists rq', In (XUpEnc rq', REnc ctx (Ok mat)) t)
       \/ exists p, In (XCache (KGetEnc p (rq_ctx rq)), REnc ctx (Ok mat)) t)
  | JEnc ctx (CErr e) => exists m rq, j = GenJob m rq /\
      ((exists rq', In (XUpEnc rq', REnc ctx (Err e)) t)
       \/ (ctx = rq_ctx rq /\ (In (XMem, RMem (Some e)) t \/ enc_cache_id sha m rq = Err e)))
  | JEnc ctx CUB => exists m rq, j = GenJob m rq /\
      ((rq_alg rq <> 0 /\ alg_lookup (rq_alg rq) = None)
       \/ exists rq' mat, In (XUpEnc rq', REnc ctx (Ok mat)) t /\ alg_lookup (em_alg mat) = None)
  | JDec (COk mat) => exists m rq, j = DecJob m rq /\
      (In (XUpDec rq, RDec (Ok mat)) t \/ exists p, In (XCache (KGetDec p), RDec (Ok mat)) t)
  | JDec (CErr e) => exists m rq, j = DecJob m rq /\
      (In (XUpDec rq, RDec (Err e)) t \/ In (XMem, RMem (Some e)) t \/ dec_cache_id sha m rq = Err e)
  | JDec CUB => exists m rq, j = DecJob m rq /\ alg_lookup (dq_alg rq) = None
  | JDone => j = ClearJob
  | JStuck => True
  end.

Lemma can_cache_none : forall a, can_cache a = None -> alg_lookup a = None.
Proof. intros a. unfold can_cache. now destruct (alg_lookup a). Qed.

Ltac in_any := match goal with |- In _ _ => in_list end.
Ltac origin_leaf :=
  first [ exact Logic.I | reflexivity | eassumption
        | match goal with
          | |- exists m rq rq', GenJob _ _ = _ /\ _ => do 3 eexists; split; [reflexivity|]; origin_leaf
          | |- exists m rq id, GenJob _ _ = _ /\ _ => do 3 eexists; split; [reflexivity|]; origin_leaf
          | |- exists m rq, GenJob _ _ = _ /\ _ => do 2 eexists; split; [reflexivity|]; origin_leaf
          | |- exists m rq id, DecJob _ _ = _ /\ _ => do 3 eexists; split; [reflexivity|]; origin_leaf
          | |- exists m rq, DecJob _ _ = _ /\ _ => do 2 eexists; split; [reflexivity|]; origin_leaf
          | |- exists m, DecJob _ _ = _ => eexists; reflexivity
          | |- passed_on _ _ _ => unfold passed_on; cbn [with_ctx rq_ctx rq_alg rq_psize rq_policy]; origin_leaf
          | |- rq_ctx _ = rq_ctx _ \/ _ => left; reflexivity
          | |- _ = rq_ctx _ \/ _ => right; do 2 eexists; in_list
          | |- can_cache _ = None -> _ => apply can_cache_none
          | H : (?a =? 0) = false |- ?a <> 0 => now apply N.eqb_neq
          | H : can_cache ?a = None |- alg_lookup ?a = None => now apply can_cache_none
          | |- In _ _ => solve [in_list]
          | |- exists rq', In _ _ => eexists; solve [in_list]
          | |- exists rq' mat, In _ _ /\ _ => do 2 eexists; split; [solve [in_list]|]; origin_leaf
          | |- _ /\ _ => split; origin_leaf
          | |- _ \/ _ => first [solve [left; origin_leaf] | solve [right; origin_leaf]]
          end ].
Ltac origin_A := cbn [origin_rule]; origin_leaf.
Ltac origin_F := cbn [origin_end]; origin_leaf.

Lemma gen_origin : forall sha m rq, obeys (origin_rule sha (GenJob m rq)) (origin_end sha (GenJob m rq)) []
  (gen_prog sha m rq).
Proof.
  intros. unfold gen_prog, gen_hit, gen_miss, check_ttl, set_ttl_on_miss, update_usage, release_opt.
  cbv zeta. sx origin_A origin_F.
Qed.

Lemma dec_origin : forall sha m rq, obeys (origin_rule sha (DecJob m rq)) (origin_end sha (DecJob m rq)) []
  (dec_prog sha m rq).
Proof.
  intros. unfold dec_prog, dec_miss, check_ttl, set_ttl_on_miss, release_opt. cbv zeta. sx origin_A origin_F.
Qed.

Lemma job_origin : forall sha j, obeys (origin_rule sha j) (origin_end sha j) [] (prog_of sha j).
Proof.
  intros sha [m rq|m rq|]; cbn [prog_of]; [apply gen_origin|apply dec_origin|sx origin_A origin_F].
Qed.

(** * One source *)

Definition once_rule (t : list (xop * resp)) (o : xop) : Prop :=
  match o with
  | XUpEnc _ | XUpDec _ | XCache (KGetEnc _ _) | XCache (KGetDec _) => forall x, In x t -> ~ used_source x
  | _ => True
  end.
Ltac once_A := cbn [once_rule]; first [exact Logic.I |
  let x := fresh in let J := fresh in
  intros x J; cbn [In] in J; repeat (destruct J as [J|J]; [subst x; cbn [used_source]; exact (fun f => f)|]); destruct J].
Ltac once_F := exact Logic.I.

Lemma job_once : forall sha j, obeys once_rule anything [] (prog_of sha j).
Proof.
  intros sha [m rq|m rq|]; cbn [prog_of].
  - unfold gen_prog, gen_hit, gen_miss, check_ttl, set_ttl_on_miss, update_usage, release_opt.
    cbv zeta. sx once_A once_F.
  - unfold dec_prog, dec_miss, check_ttl, set_ttl_on_miss, release_opt. cbv zeta. sx once_A once_F.
  - sx once_A once_F.
Qed.
