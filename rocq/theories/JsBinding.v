(** * JsBinding: model of /repo/wasm/index.ts and /repo/wasm/main.c

    The core is the model of [Spot.v] and [Heap.v]; on wasm32 the counters of the struct have 32 bits instead of the
    64 of the model (the difference shows after 2^32 observations). A struct allocated by spot_new is designated by
    its address [i]; its initial content is whatever the memory held before. *)
From stdpp Require Import gmap.
From Coq Require Import ZArith List Bool String.
From Flocq Require Import IEEE754.BinarySingleNaN.
From Verif Require Import Num XMath Ubend Peaks Brent Estimator Tail P2 Spot B64 Str Heap Layout.
Open Scope Z_scope.

(** What a JavaScript caller sees. *)
Inductive js (A : Type) : Type := JsReturns (a : A) | JsThrows (msg : list Z).
Arguments JsReturns {A} a.
Arguments JsThrows {A} msg.

(** ** Reading the struct (index.ts:175-189): slice, reverse, DataView.getFloat64(0), which is big endian *)
Fixpoint big_endian (l : list Z) : Z :=
  match l with [] => 0 | b :: l => b * 256 ^ Z.of_nat (List.length l) + big_endian l end.
Definition js_read_double (m : memory) (a : Z) : b64 := of_bits (big_endian (rev (bytes m a 8))).
Definition js_anomaly_threshold (m : memory) (ptr : Z) : b64 := js_read_double m (ptr + 32).
Definition js_excess_threshold (m : memory) (ptr : Z) : b64 := js_read_double m (ptr + 40).

(** index.ts:59-61: UTF-8 decoding (the messages are ASCII), every NUL removed *)
Definition stringify (l : list Z) : list Z := filter (fun c => negb (c =? 0)) l.
(** index.ts:81-95 *)
Definition js_error (code : Z) : res (list Z) :=
  b <- libspot_error code (Some (repeat 0 256)) 256 ;;
  match b with Some b => Ret (stringify b) | None => Undef OutOfBounds end.
(** index.ts:67-74; the buffer is not cleared before the call *)
Definition js_version (junk : list Z) : res (list Z) :=
  b <- libspot_version (Some junk) 24 ;;
  match b with Some b => Ret (stringify b) | None => Undef OutOfBounds end.

(** index.ts:160-173: construction at the address [i] returned by spot_new; the finaliser is registered before spot_init *)
Definition js_new (w : world B64) (i : Z) (q : b64) (low discard : Z) (level : b64) (max_excess : Z) : res (world B64 * js unit) :=
  '(w, r) <- w_step w (OInit (N := B64) i q low discard level max_excess) ;;
  match r with
  | OutCode c => if c <? 0 then msg <- js_error (- c) ;; Ret (w, JsThrows msg) else Ret (w, JsReturns tt)
  | _ => Ret (w, JsReturns tt)
  end.
(** index.ts:124-128: the finaliser *)
Definition js_collect (w : world B64) (i : Z) : res (world B64) :=
  '(w, _) <- w_step w (OFree i) ;; Ret w.

(** A Float64Array: a view of [fa_length] doubles of a buffer, from index [fa_start] (the buffer is taken to hold a
    whole number of doubles). *)
Record float64array : Type := MkArray { fa_buffer : list b64; fa_start : Z; fa_length : Z }.
Definition fa_wf (a : float64array) : Prop := 0 <= fa_start a /\ 0 <= fa_length a /\ fa_start a + fa_length a <= Z.of_nat (List.length (fa_buffer a)).
Definition fa_values (a : float64array) : list b64 := firstn (Z.to_nat (fa_length a)) (skipn (Z.to_nat (fa_start a)) (fa_buffer a)).

(** index.ts:197-210. [buf] is the address returned by malloc for the input; [bufs] are the input buffers not
    released yet. The copy of line 201 takes the whole underlying buffer ([data.buffer]), not the view. *)
Definition js_fit (w : world B64) (bufs : list Z) (i buf : Z) (a : float64array) : res (world B64 * list Z * js Z) :=
  if Z.of_nat (List.length (fa_buffer a)) <=? fa_length a then
    '(w, r) <- w_step w (OFit (N := B64) i (firstn (Z.to_nat (fa_length a)) (fa_buffer a))) ;;
    match r with
    | OutCode c => if c <? 0 then msg <- js_error (- c) ;; Ret (w, buf :: bufs, JsThrows msg) else Ret (w, bufs, JsReturns c)
    | _ => Ret (w, bufs, JsReturns 0)
    end
  else Undef OutOfBounds.

(** index.ts:218-224 *)
Definition js_step (w : world B64) (i : Z) (x : b64) : res (world B64 * js Z) :=
  '(w, r) <- w_step w (OStep (N := B64) i x) ;;
  match r with
  | OutCode c => if c <? 0 then msg <- js_error (- c) ;; Ret (w, JsThrows msg) else Ret (w, JsReturns c)
  | _ => Ret (w, JsReturns 0)
  end.
