#!/bin/bash
cd /verif/rocq/theories
rm -f $1.vo
timeout ${2:-300} coqc -time -Q . Verif $1.v > /tmp/time.txt 2>/tmp/err.txt; r=$?; cat /tmp/err.txt; [ $r != 0 ] && { echo "EXIT $r"; grep '^Chars' /tmp/time.txt | tail -2; }; awk '/^Chars/{for(i=1;i<=NF;i++) if($i=="secs") {if ($(i-1)+0>2) print}}' /tmp/time.txt
