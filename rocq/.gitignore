*.vo
*.vos
*.vok
*.glob
.*.aux
Makefile*
.Makefile.d
.lia.cache
.nia.cache
