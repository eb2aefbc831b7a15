#!/bin/bash
# Replays on the binary64 model the long unit tests of /repo/test/src (about 45 minutes). Needs the built theories.
# Usage: tools/suite/run.sh SCRATCH_DIR
set -e
here=$(cd "$(dirname "$0")" && pwd); out=${1:-/tmp/suite}; mkdir -p "$out"
python3 "$here/../gen_suite.py" "$out/LongData.v"
cd "$out"
coqc -Q "$here/../../rocq/theories" Verif -Q . Long LongData.v
for t in loglik prob exponential uniform pareto lognormal; do
  in="$here/$t.v.in"; [ -f "$in" ] || in="$here/fit.v.in"
  sed "s/@name@/$t/g" "$in" > "$out/$t.v"
  coqc -Q "$here/../../rocq/theories" Verif -Q . Long "$t.v" && echo "$t: passes"
done
