(** Model of src/milo/primitive/detail/mac/hmac/hmac.h over any hash class. *)
From Verif Require Import Base Model_Memory Model_Update Model_Sha Model_Mac.
Local Open Scope N_scope.

(** Members m_hash and m_buffer (hmac.h:51-53). *)
Record hmac_obj := { hm_hash : hash_obj; hm_buffer : list N }.

Definition hmac_new (al : hash_alg) : hmac_obj :=
  {| hm_hash := hash_new al; hm_buffer := repeat 0 (2 * ha_block_size al) |}.

(** [f(buffer + off, ...)] for an [f] that rewrites the bytes from its pointer on. *)
Definition at_off (buf : list N) (off : nat) (f : list N -> option (list N)) : option (list N) :=
  if (off <=? length buf)%nat then t <- f (skipn off buf) ;; Some (firstn off buf ++ t) else None.

(** hmac.h:133-137, one iteration of the loop. *)
Definition hmac_pad_step (bs : nat) (b : list N) (i : nat) : option (list N) :=
  x <- rd b i ;; b <- wr b i (N.lxor x 0x5C) ;;
  y <- rd b (i + bs) ;; wr b (i + bs) (N.lxor y 0x36).

(** hmac.h:80-144 [initialize].  A key longer than the block after line 104, for which the subtraction of
    line 124 would wrap, is [None]. *)
Definition hmac_initialize (cx : ctx) (al : hash_alg) (o : hmac_obj) (key : list N) : option hmac_obj :=
  let bs := ha_block_size al in
  '(h, b, ksz) <-
    (if (bs <? length key)%nat then
       h <- hash_update cx al (hash_initialize al (hm_hash o)) key ;;
       h <- hash_finalize cx al h ;;
       '(b, _) <- hash_digest cx al h (hm_buffer o) (ha_digest_size al) ;;
       l <- rds b 0 (ha_digest_size al) ;;
       b <- wrs b bs l ;;
       Some (h, b, ha_digest_size al)
     else
       b <- wrs (hm_buffer o) 0 key ;;
       b <- wrs b bs key ;;
       Some (hm_hash o, b, length key)) ;;
  if (bs <? ksz)%nat then None else
  b <- at_off b ksz (fun p => mem_set cx 1 p 0 (bs - ksz)) ;;
  b <- at_off b (bs + ksz) (fun p => mem_set cx 1 p 0 (bs - ksz)) ;;
  b <- foldM (hmac_pad_step bs) (seq 0 bs) b ;;
  l <- rds b bs bs ;;
  h <- hash_update cx al (hash_initialize al h) l ;;
  Some {| hm_hash := h; hm_buffer := b |}.

(** hmac.h:149-159 [update]. *)
Definition hmac_update (cx : ctx) (al : hash_alg) (o : hmac_obj) (msg : list N) : option hmac_obj :=
  h <- hash_update cx al (hm_hash o) msg ;; Some {| hm_hash := h; hm_buffer := hm_buffer o |}.

(** hmac.h:161-176 [finalize]. *)
Definition hmac_finalize (cx : ctx) (al : hash_alg) (o : hmac_obj) : option hmac_obj :=
  let bs := ha_block_size al in
  h <- hash_finalize cx al (hm_hash o) ;;
  b <- at_off (hm_buffer o) bs (fun p => '(p, _) <- hash_digest cx al h p (ha_digest_size al) ;; Some p) ;;
  l <- rds b 0 (bs + ha_digest_size al) ;;
  h <- hash_update cx al (hash_initialize al h) l ;;
  h <- hash_finalize cx al h ;;
  Some {| hm_hash := h; hm_buffer := b |}.

(** hmac.h:181-196 [digest]; [hdsz] is the digest_size option of the MAC (hmac.h:37-42). *)
Definition hmac_digest (cx : ctx) (al : hash_alg) (hdsz : nat) (o : hmac_obj) (dst : list N) (size : nat)
  : option (list N * nat) :=
  hash_digest cx al (hm_hash o) dst (Nat.min size hdsz).

(** Destructor (hmac.h:63-66); m_hash is destroyed by its own destructor. *)
Definition hmac_destroy (o : hmac_obj) : option hmac_obj :=
  b <- mem_erase (hm_buffer o) (length (hm_buffer o)) ;;
  h <- hash_destroy (hm_hash o) ;;
  Some {| hm_hash := h; hm_buffer := b |}.

Definition mac_hmac (al : hash_alg) (hdsz : nat) : mac_alg := {|
  ma_obj := hmac_obj;
  ma_new := hmac_new al;
  ma_initialize := fun cx => hmac_initialize cx al;
  ma_update := fun cx => hmac_update cx al;
  ma_finalize := fun cx => hmac_finalize cx al;
  ma_digest := fun cx => hmac_digest cx al hdsz;
  ma_digest_size := hdsz |}.
