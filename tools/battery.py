#!/usr/bin/env python3
"""Quick first pass over automatic edits of the bit-vector model.

usage: battery.py MUTANTS.json OUT.jsonl [jobs]

For an edit, only the model and the specifications are compiled again; then the
edited calls are run on many concrete values and compared with what the theorems
C77_debug, C77_release, C77_compare, C78_answers and C73_* say.  A difference is a
counterexample: the theorem is false of the edited model, so its proof must fail
("refuted").  Edits without a difference ("unrefuted") need a full build with
auto.py.
"""
import json, os, re, shutil, subprocess, sys
from concurrent.futures import ThreadPoolExecutor, as_completed

FILES = ("Base Arith Strings Bytes BigInt Bv Spec TextSpec IoSpec CallSpec PanicSpec ParseSpec MixedSpec"
         " DirtySpec InterpSpec AnswerSpec").split()
SRC = os.environ.get("MUT_SRC", "/verif/rocq") + "/theories"
WORK = "/tmp/mut/batt"

BATTERY = r'''
From Coq Require Import QArith.
From Verif Require Import Base Strings Bv Spec TextSpec IoSpec CallSpec PanicSpec ParseSpec MixedSpec DirtySpec
  InterpSpec AnswerSpec.
Local Open Scope N_scope.
Definition widths := [0; 1; 2; 7; 8; 31; 32; 33; 63; 64; 65; 70; 127; 128; 129; 191; 192; 200].
Definition pat : N := 0xf123456789abcdef0fedcba987654321a5a55a5a00ff00ff8000000000000001deadbeefcafebabe.
Definition numbers (w : N) : list N :=
  let k := 64 * places w in
  if w =? 0 then [0] else
  let all := [0; 1; 2; 3; 5; 7; 10; 99; 100; 1000; w - 1; w; w + 1; 63; 64; 65; 128; 2 ^ (w - 1); 2 ^ (w - 1) - 1; 2 ^ w - 1; 2 ^ w - 3;
   2 ^ w; 2 ^ k - 1; 2 ^ (k - 1); 2 ^ 63; 2 ^ 64 - 1; 2 ^ 64; 2 ^ 128 - 1; 2 ^ k - 2 ^ 63; 2 ^ k - 2 ^ 64; pat mod 2 ^ k; pat mod 2 ^ w;
   (pat / 2 ^ 13) mod 2 ^ (w - 1)] in
  filter (fun n => n <? 2 ^ k) all.
Definition few (w : N) : list N :=
  let k := 64 * places w in
  if w =? 0 then [0] else filter (fun n => n <? 2 ^ k) [0; 1; 2; 10; 100; w - 1; 2 ^ (w - 1); 2 ^ w - 1; 2 ^ k - 1; 64; 66; pat mod 2 ^ k; pat mod 2 ^ (w - 1)].
Definition tiny (w : N) : list N :=
  let k := 64 * places w in
  if w =? 0 then [0] else filter (fun n => n <? 2 ^ k) [0; 1; 2 ^ (w - 1); 2 ^ k - 1; 64; pat mod 2 ^ (w - 1)].
Definition store (w n : N) : bv := bv_of w n.
Definition storesb (v : bv) (w n : N) : bool :=
  (width v =? w) && (Nat.eqb (length (words v)) (N.to_nat (places w))) && forallb (fun x => x <? 2 ^ 64) (words v)
  && (words_val (words v) =? n).
Definition agreesb (r : res (option bv)) (o : outcome) : bool :=
  match o, r with
  | Gives w n, Ok (Some v) => storesb v w n
  | Errs, Ok None => true
  | Stops, Panic _ => true
  | _, _ => false
  end.
Definition both (f : mode -> res (option bv)) (o : outcome) : bool :=
  agreesb (f Debug) o && match o with Stops => true | _ => agreesb (f Release) o end.
Definition same (x y : answer) : bool :=
  let eqt := fix go a b := match a, b with [], [] => true | c :: a, d :: b => (c =? d) && go a b | _, _ => false end in
  match x, y with
  | ABool a, ABool b => Bool.eqb a b
  | AOptBool (Some a), AOptBool (Some b) => Bool.eqb a b
  | AOptBool None, AOptBool None => true
  | ANum a, ANum b => a =? b
  | AOptNum (Some a), AOptNum (Some b) => a =? b
  | AOptNum None, AOptNum None => true
  | AInt a, AInt b => (a =? b)%Z
  | AOptInt (Some a), AOptInt (Some b) => (a =? b)%Z
  | AOptInt None, AOptInt None => true
  | AText a, AText b => eqt a b
  | ARatio (Some a), ARatio (Some b) => Qeq_bool a b
  | ARatio None, ARatio None => true
  | _, _ => false
  end.
Definition told (l : look) (w n : N) : bool :=
  match look_result l w n with
  | Some y => match tell Debug l (store w n), tell Release l (store w n) with Ok a, Ok b => same a y && same b y | _, _ => false end
  | None => match tell Debug l (store w n) with Panic _ => true | _ => false end
  end.
Definition tested (t : test) (w n w' k : N) : bool :=
  match test_result t w n w' k with
  | Some y => match run_test t Debug (store w n) (store w' k), run_test t Release (store w n) (store w' k) with
              | Ok a, Ok b => Bool.eqb a y && Bool.eqb b y | _, _ => false end
  | None => match run_test t Debug (store w n) (store w' k) with Panic _ => true | _ => false end
  end.
Definition kindb (a b : int_error_kind) : bool := match a, b with InvalidDigit, InvalidDigit | ExceedsWidth, ExceedsWidth => true | _, _ => false end.
Definition assignedb (r : res (bv * option int_error_kind)) (w : N) (o : reading) : bool :=
  match o, r with
  | Reads n, Ok (v, None) => storesb v w n
  | Fails k n, Ok (v, Some k') => storesb v w n && kindb k k'
  | Breaks, Panic _ => true
  | _, _ => false
  end.
Definition parsesb (r : res parsed) (w : N) (o : reading) : bool :=
  match o, r with
  | Reads n, Ok (Parsed v) => storesb v w n
  | Fails k _, Ok (ParseErr k') => kindb k k'
  | Breaks, Panic _ => true
  | _, _ => false
  end.
Definition onw {A} (f : N -> list A) : list A := flat_map f widths.
Definition positions (w : N) := [0; 1; w - 1; w; w + 1; 62; 63; 64; 65; 127; 128; 64 * places w - 1; 64 * places w].
Definition pairs {A B} (l : list A) (k : list B) : list (A * B) := flat_map (fun a => map (fun b => (a, b)) k) l.

Definition looks (w : N) := [LWidth; LIsZero; LIsTru; LIsFals; LIsNegative; LBool; LU64; LI64; LBigInt; LBigUint; LBitStr;
  LBitStrSigned; LHexStr; LHexStrSigned; LDecStr; LBytes] ++ map LIsBitSet (positions w) ++ map LFixed [0; 1; 5; w; w + 1; 63; 64] ++ map LFixedSigned [0; 1; 5; w; w + 1; 63; 64].
Definition c_look := forallb (fun w => forallb (fun n => forallb (fun l => told l w n) (looks w)) (numbers w)) [0; 1; 2; 63; 64; 65; 128; 129; 200].

Definition texts : list (list N) := [[]; [48]; [49]; [45]; [43]; [45; 43]; [45; 49]; [43; 49]; [45; 43; 49; 48]; [43; 45; 49]; [45; 45; 49]; [49; 49; 48; 49]; [50]; [49; 50];
  [102; 70]; [97]; [65]; [71; 65; 122]; [90]; [57; 48]; [103]; [45; 56; 48]; [122; 90]; [57; 57; 57]; [49; 95]; [32; 49]; repeat 49 64; repeat 49 65; repeat 48 200; repeat 49 200; 45 :: repeat 49 129; repeat 49 201; repeat 102 16; repeat 102 17; repeat 102 48; repeat 102 64; repeat 102 65; repeat 102 33; 45 :: repeat 102 34; [49; 47; 58; 64; 65]; [97; 96]; [71]; [91; 123];
  repeat 49 100 ++ [50] ++ repeat 48 70; [120] ++ repeat 49 65; repeat 49 70 ++ [45]; repeat 102 20 ++ [103] ++ repeat 49 20; 103 :: repeat 49 65; repeat 97 5; repeat 49 140].
Definition c_parse := forallb (fun w => forallb (fun r => forallb (fun s =>
   both (fun m => run m (KFromStr s r w)) (fresh (KFromStr s r w))
   && parsesb (bv_from_str_radix Debug s r w) w (reading_of r w 0 s)
   && forallb (fun x => assignedb (bv_assign_from_str_radix Debug (store w x) s r) w (reading_of r w x s)) (if w =? 0 then [0] else [pat mod 2 ^ w])) texts) [2; 10; 16; 36; 1; 37]) [0; 1; 8; 64; 65; 128; 129; 200].
Definition c_parse2 := forallb (fun s => both (fun m => run m (KFromBitStr s)) (fresh (KFromBitStr s)) && both (fun m => run m (KFromHexStr s)) (fresh (KFromHexStr s))
   && parsesb (bv_from_bit_str Debug s) (text_width 1 s) (reading_of 2 (text_width 1 s) 0 s)
   && parsesb (bv_from_hex_str Debug s) (text_width 4 s) (reading_of 16 (text_width 4 s) 0 s)) texts.

Definition ints (w : N) : list Z := [0; 1; -1; 2; -2; 2 ^ 63 - 1; - 2 ^ 63; 2 ^ (Z.of_N w - 1); - 2 ^ (Z.of_N w - 1); - 2 ^ (Z.of_N w - 1) - 1; 2 ^ (Z.of_N w - 1) - 1]%Z.
Definition i64s (w : N) := filter (fun z => ((- 2 ^ 63 <=? z) && (z <? 2 ^ 63))%Z) (ints w).
Definition u64s (w : N) := filter (fun n => n <? 2 ^ 64) [0; 1; 2; 5; 2 ^ w - 1; 2 ^ w; 2 ^ (w - 1); 2 ^ 63; 2 ^ 64 - 1].
Definition bigs (w : N) := ints w ++ [Z.of_N pat; - Z.of_N pat; 2 ^ Z.of_N w; 2 ^ Z.of_N w - 1; - 2 ^ Z.of_N w; 2 ^ 128; - 2 ^ 64; 2 ^ 64; 2 ^ 64 - 1; 2 ^ 32; 2 ^ 32 - 1; - 2 ^ 127; - 2 ^ 128 + 1]%Z.
Definition bytess : list (list N) := [[]; [1]; [255]; [1; 2; 3]; repeat 255 8; repeat 171 9; [1; 2; 3; 4; 5; 6; 7; 8; 9; 10; 11; 12; 13; 14; 15; 16; 17]; repeat 200 24; repeat 200 25; repeat 129 32; repeat 7 33].
Definition constructors (w : N) : list call :=
  [KZero w; KOnes w; KFromBool true; KFromBool false; KTru; KFals] ++ map (fun n => KFromU64 n w) (u64s w) ++ map (fun z => KFromI64 z w) (i64s w)
  ++ map (fun b => KFromBytes b w) bytess ++ map (fun z => KFromBigInt z w) (bigs w) ++ map (fun z => KFromBigUint (Z.abs_N z) w) (bigs w)
  ++ map KOfBigInt (bigs w) ++ map (fun z => KOfBigUint (Z.abs_N z)) (bigs w).
Definition c_fresh := forallb (fun w => forallb (fun c => both (fun m => run m c) (fresh c)) (constructors w)) widths.

Definition unaries (w : N) : list unary :=
  [UNot; UNegate; UMask; UClear; UOnes] ++ map (fun p => USlice (fst p) (snd p)) (pairs [0; 1; w - 1; w; w + 1; 63; 64; 127; 2 ^ 32 - 1] [0; 1; w - 1; w; 63; 64; 65; 127; 2 ^ 32 - 1])
  ++ map UZeroExtend ([0; 1; 5; 63; 64; 65; 130] ++ if w =? 0 then [] else [2 ^ 32 - w; 2 ^ 32 - 1]) ++ map USignExtend ([0; 1; 5; 63; 64; 65; 130] ++ if w =? 0 then [] else [2 ^ 32 - w; 2 ^ 32 - 1])
  ++ map UAssignU64 (u64s w) ++ map UAssignI64 (i64s w) ++ map USetBit (positions w) ++ map UClearBit (positions w).
Definition c_unary := forallb (fun w => forallb (fun n => forallb (fun u => both (fun m => run m (unary_call u (store w n))) (unary_result u w n)) (unaries w)) (few w)) [0; 1; 2; 8; 63; 64; 65; 70; 128; 129; 192; 200].

(* shifting by 1000 or more is all the same here, and 2 ^ k is computed *)
Definition clip (op : binop) (k : N) : N := match op with BShl | BShr | BAshr => N.min k 1000 | _ => k end.
Definition ops := [BAdd; BSub; BMul; BAnd; BOr; BXor; BShl; BShr; BAshr; BConcat].
Definition tests := [TEqual; TNotEqual; TGreater; TGreaterEqual; TLess; TLessEqual; TGreaterSigned; TGreaterEqualSigned; TLessSigned; TLessEqualSigned; TEqOwned; TEqRef].
Definition c_binary := forallb (fun w => forallb (fun n => forallb (fun k => forallb (fun op =>
   both (fun m => run m (KBin op (store w n) (store w k))) (binary_result op w n w (clip op k))) ops
   && forallb (fun t => tested t w n w k) tests) (few w)) (few w)) [1; 8; 63; 64; 65; 70; 128; 129; 192].
Definition c_binary2 := forallb (fun w => forallb (fun w' => forallb (fun n => forallb (fun k => forallb (fun op =>
   both (fun m => run m (KBin op (store w n) (store w' k))) (binary_result op w n w' (clip op k))) ops
   && forallb (fun t => tested t w n w' k) tests
   && both (fun m => run m (KAssign (store w n) (store w' k))) (if w =? w' then Gives w k else Stops)) (few w')) (few w)) [0; 1; 64; 70]) [0; 1; 5; 64; 65].
'''
CHECKS = "c_fresh c_parse2 c_look c_unary c_binary2 c_binary c_parse".split()
SAYS = dict(c_look="C78_answers", c_parse="C73 / C77_debug (texts)", c_parse2="C73 / C77_debug (texts)",
            c_fresh="C77_debug, C77_release (constructors)", c_unary="C77_debug, C77_release (calls on one value)",
            c_binary="C77_debug, C77_release, C77_compare (calls on two values)",
            c_binary2="C77_debug, C77_release, C77_compare (calls on two values)")

def coqc(wd, n, timeout=300):
    try:
        p = subprocess.run(["timeout", str(timeout), "coqc", "-q", "-Q", ".", "Verif", n + ".v"], cwd=wd,
                           stdout=subprocess.PIPE, stderr=subprocess.STDOUT, text=True)
        return p.returncode, p.stdout
    except Exception as e:
        return 1, repr(e)

# a quick version
SMALL = [
  ("(looks w)) (numbers w)) [0; 1; 2; 63; 64; 65; 128; 129; 200].", "(looks w)) (few w)) [0; 1; 8; 64; 65; 129]."),
  ("(unaries w)) (few w)) [0; 1; 2; 8; 63; 64; 65; 70; 128; 129; 192; 200].", "(unaries w)) (tiny w)) [0; 1; 8; 64; 65; 129]."),
  ("(few w)) (few w)) [1; 8; 63; 64; 65; 70; 128; 129; 192].", "(tiny w)) (few w)) [1; 8; 64; 70; 128]."),
  ("(few w')) (few w)) [0; 1; 64; 70]) [0; 1; 5; 64; 65].", "(tiny w')) (tiny w)) [0; 1; 64]) [0; 5; 65]."),
  ("[2; 10; 16; 36; 1; 37]) [0; 1; 8; 64; 65; 128; 129; 200].", "[2; 10; 16; 37]) [0; 8; 64; 129; 200]."),
  ("[0; 1; w - 1; w; w + 1; 63; 64; 127; 2 ^ 32 - 1] [0; 1; w - 1; w; 63; 64; 65; 127; 2 ^ 32 - 1]", "[0; w - 1; w; 63; 64; 2 ^ 32 - 1] [0; 1; w - 1; 63; 64]"),
]
def write_battery(wd, checks):
    b = BATTERY
    if os.environ.get("BATTERY") != "big":
        for x, y in SMALL:
            assert x in b, x
            b = b.replace(x, y)
    for c in checks: b += f"Lemma {c}_ok : {c} = true. Proof. vm_compute. reflexivity. Abort." + "\n"
    try: os.remove(f"{wd}/Battery.v")
    except FileNotFoundError: pass
    open(f"{wd}/Battery.v", "w").write(b)

FIRST = dict(Strings="c_parse2 c_look c_parse", Arith="c_unary c_binary2 c_binary", Bytes="c_fresh c_look", BigInt="c_fresh c_look")
def ordered(f):
    first = FIRST.get(f, "").split()
    return first + [c for c in CHECKS if c not in first]

def failing(wd, out):
    """The check that came out false, None for any other error."""
    m = re.search(r"line (\d+), characters", out)
    if not m or "Unable to unify" not in out: return None
    return re.match(r"Lemma (\w+)_ok", open(f"{wd}/Battery.v").read().split("\n")[int(m.group(1)) - 1]).group(1)

def deps():
    d = {}
    for f in FILES:
        t = open(f"{SRC}/{f}.v").read()
        names = set(re.findall(r"\w+", " ".join(re.findall(r"From Verif Require Import ([^.]*)\.", t))))
        d[f] = (names & set(FILES))
    full = {}
    for f in FILES: full[f] = set(d[f]).union(*[full[x] for x in d[f]])
    return full

def base():
    wd = f"{WORK}/base"
    shutil.rmtree(wd, ignore_errors=True); os.makedirs(wd)
    for f in FILES:
        shutil.copy(f"{SRC}/{f}.v", wd)
        rc, out = coqc(wd, f); assert rc == 0, out
    write_battery(wd, CHECKS)
    rc, out = coqc(wd, "Battery", 900)
    print("unedited:", rc, failing(wd, out), flush=True)
    assert rc == 0, out

def one(mu, full):
    wd = f"{WORK}/{mu['id']}"
    shutil.rmtree(wd, ignore_errors=True)
    shutil.copytree(f"{WORK}/base", wd, copy_function=os.link)
    def put(n, text):
        os.remove(f"{wd}/{n}.v"); open(f"{wd}/{n}.v", "w").write(text)
    f = mu["file"]; t = open(f"{wd}/{f}.v").read()
    res = dict(mu)
    try:
        if t[mu["pos"]:mu["end"]] != mu["old"]: res.update(result="stale"); return res
        put(f, t[:mu["pos"]] + mu["new"] + t[mu["end"]:])
        for n in FILES:
            if n != f and f not in full[n]: continue
            for e in ("vo", "vos", "vok", "glob"):
                try: os.remove(f"{wd}/{n}.{e}")
                except FileNotFoundError: pass
            rc, out = coqc(wd, n, 120)
            if rc: res.update(result="stillborn", by=out[-200:]); return res
        for e in ("vo", "vos", "vok", "glob"):
            try: os.remove(f"{wd}/Battery.{e}")
            except FileNotFoundError: pass
        write_battery(wd, ordered(f))
        rc, out = coqc(wd, "Battery", 300)
        bad = failing(wd, out) if rc else None
        if bad: res.update(result="refuted", by=SAYS[bad])
        elif rc: res.update(result="timeout" if rc == 124 else "error", by=out[-300:])
        else: res.update(result="unrefuted")
        return res
    finally:
        shutil.rmtree(wd, ignore_errors=True)

if __name__ == "__main__":
    base()
    if len(sys.argv) < 3: sys.exit()
    mus = [m for m in json.load(open(sys.argv[1])) if m["file"] in FILES]; outf = sys.argv[2]
    jobs = int(sys.argv[3]) if len(sys.argv) > 3 else 1
    done = {json.loads(l)["id"] for l in open(outf)} if os.path.exists(outf) else set()
    full = deps()
    with ThreadPoolExecutor(jobs) as ex:
        fs = {ex.submit(one, m, full): m for m in mus if m["id"] not in done}
        for fu in as_completed(fs):
            try: r = fu.result()
            except Exception as e: r = dict(fs[fu], result="error", by=repr(e))
            with open(outf, "a") as o: o.write(json.dumps(r) + "\n")
