*.vo
*.vok
*.vos
*.glob
*.aux
.*.aux
.lia.cache
.nra.cache
.Makefile.d
rocq/Makefile
rocq/Makefile.conf
