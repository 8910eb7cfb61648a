*.vo
*.vos
*.vok
*.glob
*.aux
.*.aux
.lia.cache
.nra.cache
.nia.cache
rocq/Makefile
rocq/Makefile.conf
rocq/.Makefile.d
rocq/.coqdeps.d
