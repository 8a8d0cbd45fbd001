(** std::io writers, as used for the [writer: &mut BufWriter<W>] arguments.

    Not /repo code: a model of the documented std behaviour.  [W: Write] is an
    arbitrary caller-supplied sink; its behaviour is a script giving the answer
    to each successive [write] call: accept at most n bytes, be interrupted, or
    fail.  When the script is exhausted the sink accepts everything. *)

From Verif.Model Require Export Base.

(** One answer of the caller's sink; not /repo code. *)
Inductive wresp := WAccept (n : N) | WFail (e : io_error).

(** The caller's [W: Write]: what it took, and its answers to come. *)
Record sink := { sink_data : bytes; sink_script : list wresp }.

(** [W::write(buf) -> io::Result<usize>]. *)
Definition sink_write (s : sink) (b : bytes) : sink * (N + io_error) :=
  match sink_script s with
  | [] => ({| sink_data := sink_data s ++ b; sink_script := [] |}, inl (len b))
  | WAccept n :: sc =>
      let k := N.to_nat (N.min n (len b)) in
      ({| sink_data := sink_data s ++ firstn k b; sink_script := sc |},
       inl (N.of_nat k))
  | WFail e :: sc =>
      ({| sink_data := sink_data s; sink_script := sc |}, inr e)
  end.

(** [BufWriter<W>]: capacity, pending bytes, inner writer. *)
Record bufwriter := { bw_cap : N; bw_buf : bytes; bw_sink : sink }.

(** BufWriter::flush_buf: writes the pending bytes until all are taken, an
    error other than Interrupted occurs, or the sink takes 0 bytes; taken
    bytes leave the buffer.  Recursion on the script, which each turn of the
    loop shortens. *)
Fixpoint flush_loop (sc : list wresp) (out buf : bytes)
  : sink * bytes * option io_error :=
  match buf with
  | [] => ({| sink_data := out; sink_script := sc |}, [], None)
  | _ :: _ =>
    match sc with
    | [] => ({| sink_data := out ++ buf; sink_script := [] |}, [], None)
    | WAccept n :: sc' =>
        let k := N.to_nat (N.min n (len buf)) in
        match k with
        | O => ({| sink_data := out; sink_script := sc' |}, buf, Some IoWriteZero)
        | S _ => flush_loop sc' (out ++ firstn k buf) (skipn k buf)
        end
    | WFail IoInterrupted :: sc' => flush_loop sc' out buf
    | WFail e :: sc' =>
        ({| sink_data := out; sink_script := sc' |}, buf, Some e)
    end
  end.

(** BufWriter::flush_buf on the whole writer; not /repo code. *)
Definition bw_flush_buf (w : bufwriter) : bufwriter * option io_error :=
  let '(s, b, e) := flush_loop (sink_script (bw_sink w)) (sink_data (bw_sink w)) (bw_buf w) in
  ({| bw_cap := bw_cap w; bw_buf := b; bw_sink := s |}, e).

(** <BufWriter as Write>::write: flush when the new bytes do not fit, then
    buffer them, or hand them to the sink in one call when they are at least
    as long as the capacity.  The count returned may then be short. *)
Definition bw_write (w : bufwriter) (b : bytes) : bufwriter * (N + io_error) :=
  let '(w1, e) :=
    if bw_cap w <? len (bw_buf w) + len b then bw_flush_buf w else (w, None) in
  match e with
  | Some e => (w1, inr e)
  | None =>
    if bw_cap w1 <=? len b then
      let '(s, r) := sink_write (bw_sink w1) b in
      ({| bw_cap := bw_cap w1; bw_buf := bw_buf w1; bw_sink := s |}, r)
    else
      ({| bw_cap := bw_cap w1; bw_buf := bw_buf w1 ++ b; bw_sink := bw_sink w1 |},
       inl (len b))
  end.

(** [Write::write_all]: repeats [write] until every byte is taken.  Fuel: each
    turn takes a byte or consumes a script entry (Proofs/IoFacts.v shows that
    the fuel given by [bw_write_all] is enough, so [IoModelFuel] never occurs). *)
Fixpoint write_all_loop (fuel : nat) (w : bufwriter) (b : bytes)
  : bufwriter * option io_error :=
  match b with
  | [] => (w, None)
  | _ :: _ =>
    match fuel with
    | O => (w, Some IoModelFuel)
    | S fuel' =>
      match bw_write w b with
      | (w', inl n) =>
          if n =? 0 then (w', Some IoWriteZero)
          else write_all_loop fuel' w' (skipn (N.to_nat n) b)
      | (w', inr IoInterrupted) => write_all_loop fuel' w' b
      | (w', inr e) => (w', Some e)
      end
    end
  end.

(** [Write::write_all] on the writer: used by the cipher crate that
    src/encryption/chacha20_poly1305_aead.rs:69-88 calls. *)
Definition bw_write_all (w : bufwriter) (b : bytes) : bufwriter * option io_error :=
  write_all_loop (length b + length (sink_script (bw_sink w)))%nat w b.

(** All bytes handed over so far, in order: those the sink has taken, then
    those still pending in the buffer.  Observation used by the statements. *)
Definition bw_bytes (w : bufwriter) : bytes := sink_data (bw_sink w) ++ bw_buf w.
